(** C74: what a command line means.  C75: outputs that are inputs too.  C52: names without an extension. *)
From Coq Require Import String List.
From Verif Require Import Outcome Floats Bits Encoding Matrix Signature Process Image Cli PropsCli Getopts.
From Verif Require Toy PropsProcess2 PropsImage.
Open Scope Z_scope.
Open Scope list_scope.

(** ** Specification of C74: the grammar of command lines *)
Inductive item :=
| Input (p : list Z)                                       (* FILE *)
| Flags (more : nat)                                       (* -h, -hh, ... *)
| Valued (hs : nat) (is_s : bool) (v : list Z) (attached : bool)   (* -s V, -sV, -hs V, ...; -o V, ... *)
| LongFlag (short : bool)                                  (* --help, --h *)
| LongValued (is_s : bool) (v : list Z) (equals : bool).   (* --s V, --s=V, --o V, --o=V *)
Definition letter (is_s : bool) : Z := if is_s then LETTER_s else LETTER_o.
Definition words (i : item) : list (list Z) :=
  match i with
  | Input p => [p]
  | Flags k => [DASH :: LETTER_h :: repeat LETTER_h k]
  | Valued k s v true => [DASH :: repeat LETTER_h k ++ letter s :: v]
  | Valued k s v false => [DASH :: repeat LETTER_h k ++ [letter s]; v]
  | LongFlag true => [[DASH; DASH; LETTER_h]]
  | LongFlag false => [DASH :: DASH :: WORD_help]
  | LongValued s v true => [DASH :: DASH :: letter s :: EQUALS :: v]
  | LongValued s v false => [[DASH; DASH; letter s]; v]
  end.
(** a file name must not look like an option; an attached value is not empty *)
Definition well_formed (i : item) : Prop :=
  match i with
  | Input p => forall c t, p <> DASH :: c :: t
  | Valued _ _ v true => v <> []
  | _ => True
  end.
Definition values (is_s : bool) (i : item) : list (list Z) :=
  match i with Valued _ s v _ | LongValued s v _ => if Bool.eqb s is_s then [v] else [] | _ => [] end.
Definition helps (i : item) : nat :=
  match i with Flags k => S k | Valued k _ _ _ => k | LongFlag _ => 1 | _ => 0 end.
Definition inputs_of (i : item) : list (list Z) := match i with Input p => [p] | _ => [] end.
(** [args] consists of [items] and, if [tail] is given, of "--" and [tail]. *)
Definition command_line (args : list (list Z)) (items : list item) (tail : option (list (list Z))) : Prop :=
  Forall well_formed items
  /\ args = concat (map words items) ++ match tail with None => [] | Some rest => [DASH; DASH] :: rest end.
Definition tail_inputs (tail : option (list (list Z))) : list (list Z) := match tail with None => [] | Some r => r end.
Definition total_helps (items : list item) : nat := list_sum (map helps items).
(** [m] is what the items say; no option is given twice. *)
Definition says (items : list item) (tail : option (list (list Z))) (m : matches) : Prop :=
  opt_h m = Nat.eqb (total_helps items) 1 /\ (total_helps items <= 1)%nat
  /\ concat (map (values true) items) = match opt_s m with None => [] | Some v => [v] end
  /\ concat (map (values false) items) = match opt_o m with None => [] | Some v => [v] end
  /\ free m = concat (map inputs_of items) ++ tail_inputs tail.

(** How the items are spelled, in characters. *)
Theorem C74_spelling : forall v, words (Flags 0) = [str "-h"] /\ words (LongFlag true) = [str "--h"] /\ words (LongFlag false) = [str "--help"]
  /\ words (Valued 0 true v true) = [str "-s" ++ v] /\ words (Valued 0 true v false) = [str "-s"; v] /\ words (Valued 1 true v false) = [str "-hs"; v]
  /\ words (Valued 0 false v true) = [str "-o" ++ v] /\ words (Valued 0 false v false) = [str "-o"; v]
  /\ words (LongValued true v true) = [str "--s=" ++ v] /\ words (LongValued true v false) = [str "--s"; v]
  /\ words (LongValued false v true) = [str "--o=" ++ v] /\ words (LongValued false v false) = [str "--o"; v]
  /\ (forall items, command_line (concat (map words items) ++ str "--" :: [v]) items (Some [v]) <-> Forall well_formed items)
  /\ (well_formed (Input (str "-")) /\ well_formed (Input []) /\ ~ well_formed (Input (str "-x"))).
Proof.
  intros v. repeat match goal with |- _ = _ /\ _ => split; [reflexivity|] end. split.
  - intros items. unfold command_line. change (str "--") with [DASH; DASH]. tauto.
  - split; [intros c t; discriminate|]. split; [intros c t; discriminate|]. intros H. exact (H 120 [] eq_refl).
Qed.

(** ** Proof *)
Definition absorb (f : found) (i : item) : found :=
  mkFound (vals_s f ++ values true i) (vals_o f ++ values false i) (times_h f + helps i) (frees f ++ inputs_of i).
Lemma found_eta f : f = mkFound (vals_s f) (vals_o f) (times_h f) (frees f). Proof. now destruct f. Qed.

Lemma scan_hs k : forall f cs, scan f (repeat LETTER_h k ++ cs) = scan (mkFound (vals_s f) (vals_o f) (times_h f + k) (frees f)) cs.
Proof.
  induction k as [|k IH]; intros f cs; cbn [repeat app].
  - rewrite Nat.add_0_r, <- found_eta. reflexivity.
  - cbn [scan]. change (find_short LETTER_h) with (Some OptH). cbv iota. rewrite IH. unfold add_flag. cbn [vals_s vals_o times_h frees]. now rewrite Nat.add_succ_comm.
Qed.
Lemma scan_valued f k s v : scan f (repeat LETTER_h k ++ letter s :: v)
  = Some (mkFound (vals_s f) (vals_o f) (times_h f + k) (frees f), Some (s, match v with [] => None | _ => Some v end)).
Proof. rewrite scan_hs. destruct s; reflexivity. Qed.
Lemma scan_flags f k : scan f (repeat LETTER_h k) = Some (mkFound (vals_s f) (vals_o f) (times_h f + k) (frees f), None).
Proof. rewrite <- (app_nil_r (repeat _ _)), scan_hs. reflexivity. Qed.

Lemma absorb_valued f k s v a : absorb f (Valued k s v a) = add_value (mkFound (vals_s f) (vals_o f) (times_h f + k) (frees f)) s v.
Proof. unfold absorb, add_value. destruct s; cbn; now rewrite !app_nil_r. Qed.
Lemma absorb_long f s v e : absorb f (LongValued s v e) = add_value f s v.
Proof. unfold absorb, add_value. destruct s; cbn; now rewrite !app_nil_r, Nat.add_0_r. Qed.
Lemma absorb_flag f b : absorb f (LongFlag b) = add_flag f.
Proof. unfold absorb, add_flag. cbn. now rewrite !app_nil_r, Nat.add_1_r. Qed.
Lemma absorb_input f p : absorb f (Input p) = add_free f p.
Proof. unfold absorb, add_free. cbn. now rewrite !app_nil_r, Nat.add_0_r. Qed.
Lemma absorb_flags f k : absorb f (Flags k) = mkFound (vals_s f) (vals_o f) (times_h f + S k) (frees f).
Proof. unfold absorb. cbn. now rewrite !app_nil_r. Qed.

Lemma collect_short f c more rest : c <> DASH -> collect f ((DASH :: c :: more) :: rest)
  = match scan f (c :: more) with
    | None => None
    | Some (f', None) => collect f' rest
    | Some (f', Some (is_s, Some v)) => collect (add_value f' is_s v) rest
    | Some (f', Some (is_s, None)) => match rest with [] => None | v :: rest' => collect (add_value f' is_s v) rest' end
    end.
Proof. intros H. cbn [collect]. rewrite Z.eqb_refl. apply Z.eqb_neq in H. now rewrite H. Qed.
Lemma collect_valued_word f k s v rest : collect f ((DASH :: repeat LETTER_h k ++ letter s :: v) :: rest)
  = match v with
    | [] => match rest with [] => None | v' :: rest' => collect (absorb f (Valued k s v' false)) rest' end
    | _ => collect (absorb f (Valued k s v true)) rest
    end.
Proof.
  assert (E : exists c more, c <> DASH /\ repeat LETTER_h k ++ letter s :: v = c :: more).
  { destruct k as [|k]; cbn [repeat app]; eexists; eexists; (split; [|reflexivity]); [destruct s|]; discriminate. }
  destruct E as (c & more & Hc & E). rewrite E, collect_short by exact Hc. rewrite <- E, scan_valued. destruct v as [|x v].
  - destruct rest as [|v' r]; [reflexivity|]. now rewrite absorb_valued.
  - now rewrite absorb_valued.
Qed.
Lemma collect_input f p rest : (forall c t, p <> DASH :: c :: t) -> collect f (p :: rest) = collect (add_free f p) rest.
Proof.
  intros H. cbn [collect]. destruct p as [|c0 [|c1 more]]; try reflexivity. destruct (Z.eqb_spec c0 DASH) as [->|Hn]; [|reflexivity]. now elim (H c1 more).
Qed.
Lemma collect_words f i rest : well_formed i -> collect f (words i ++ rest) = collect (absorb f i) rest.
Proof.
  destruct i as [p|k|k s v [|]|[|]|s v [|]]; cbn [well_formed words app]; intros H.
  - rewrite collect_input by exact H. now rewrite absorb_input.
  - rewrite collect_short by discriminate. change (LETTER_h :: repeat LETTER_h k) with (repeat LETTER_h (S k)). rewrite scan_flags. now rewrite absorb_flags.
  - rewrite collect_valued_word. destruct v; [congruence|reflexivity].
  - now rewrite collect_valued_word.
  - cbn [collect split_equals]. rewrite absorb_flag. reflexivity.
  - cbn [collect]. rewrite absorb_flag. reflexivity.
  - rewrite absorb_long. destruct s; reflexivity.
  - rewrite absorb_long. destruct s; reflexivity.
Qed.

Definition absorb_all (f : found) (items : list item) : found := fold_left absorb items f.
Lemma absorb_all_eq items : forall f, absorb_all f items =
  mkFound (vals_s f ++ concat (map (values true) items)) (vals_o f ++ concat (map (values false) items))
          (times_h f + total_helps items) (frees f ++ concat (map inputs_of items)).
Proof.
  unfold absorb_all, total_helps. induction items as [|i r IH]; intros f; cbn [fold_left map concat list_sum fold_right].
  - rewrite !app_nil_r, Nat.add_0_r. apply found_eta.
  - rewrite IH. unfold absorb. cbn [vals_s vals_o times_h frees]. rewrite <- !app_assoc, Nat.add_assoc. reflexivity.
Qed.
Definition finish (f : found) (tail : option (list (list Z))) : found :=
  mkFound (vals_s f) (vals_o f) (times_h f) (frees f ++ tail_inputs tail).

Lemma collect_sound args items tail f : command_line args items tail -> collect f args = Some (finish (absorb_all f items) tail).
Proof.
  intros (Hw & ->). revert f. unfold absorb_all. induction Hw as [|i r Hi Hr IH]; intros f; cbn [map concat fold_left].
  - cbn [app]. destruct tail as [r|]; [reflexivity|]. cbn [collect]. unfold finish. cbn [tail_inputs]. rewrite app_nil_r. f_equal. apply found_eta.
  - rewrite <- app_assoc, collect_words by exact Hi. apply IH.
Qed.

Lemma split_equals_app l : match split_equals l with (a, None) => l = a | (a, Some b) => l = a ++ EQUALS :: b end.
Proof.
  induction l as [|c t IH]; [reflexivity|]. cbn [split_equals]. destruct (Z.eqb_spec c EQUALS) as [->|Hn]; [reflexivity|].
  destruct (split_equals t) as (a, [b|]); cbn [app]; now rewrite IH at 1.
Qed.
Lemma scan_shape cs : forall f f' r, scan f cs = Some (f', r) ->
  (exists k, cs = repeat LETTER_h k /\ r = None) \/ (exists k s v, cs = repeat LETTER_h k ++ letter s :: v).
Proof.
  induction cs as [|c t IH]; intros f f' r H.
  - left. exists 0%nat. split; [reflexivity|]. cbn in H. congruence.
  - cbn [scan] in H. unfold find_short in H. destruct (Z.eqb_spec c LETTER_s) as [->|]; [right; exists 0%nat, true, t; reflexivity|].
    destruct (Z.eqb_spec c LETTER_o) as [->|]; [right; exists 0%nat, false, t; reflexivity|].
    destruct (Z.eqb_spec c LETTER_h) as [->|]; [|discriminate].
    destruct (IH _ _ _ H) as [(k & -> & Hr) | (k & s & v & ->)].
    + left. exists (S k). now split.
    + right. exists (S k), s, v. reflexivity.
Qed.
Lemma find_name_shape n id : find_name n = Some id -> (id = OptS /\ n = [LETTER_s]) \/ (id = OptO /\ n = [LETTER_o]) \/ (id = OptH /\ (n = [LETTER_h] \/ n = WORD_help)).
Proof.
  unfold find_name. destruct n as [|c [|c' t]].
  - discriminate.
  - unfold find_short. destruct (Z.eqb_spec c LETTER_s) as [->|]; [intros H; left; split; congruence|].
    destruct (Z.eqb_spec c LETTER_o) as [->|]; [intros H; right; left; split; congruence|].
    destruct (Z.eqb_spec c LETTER_h) as [->|]; [|discriminate]. intros H. right. right. split; [congruence|now left].
  - destruct (bytes_eqb (c :: c' :: t) WORD_help) eqn:Eb; [|discriminate]. apply bytes_eqb_spec in Eb. intros H. right. right. split; [congruence|now right].
Qed.

Lemma collect_complete : forall n args f g, (length args <= n)%nat -> collect f args = Some g -> exists items tail, command_line args items tail.
Proof.
  induction n as [|n IH]; intros args f g Hn H.
  { destruct args; [|cbn in Hn; lia]. exists [], None. now split. }
  destruct args as [|cur rest]; [exists [], None; now split|]. cbn [length] in Hn.
  assert (step : forall i args', cur :: rest = words i ++ args' -> well_formed i -> (length args' <= n)%nat ->
    exists items tail, command_line (cur :: rest) items tail).
  { intros i args' Ea Hi Hl. rewrite Ea, collect_words in H by exact Hi. destruct (IH _ _ _ Hl H) as (items & tail & Hw & Et).
    exists (i :: items), tail. split; [now constructor|]. cbn [map concat]. rewrite <- app_assoc, <- Et. exact Ea. }
  destruct cur as [|c0 [|c1 more]].
  - apply (step (Input []) rest); [reflexivity|cbn; discriminate|lia].
  - apply (step (Input [c0]) rest); [reflexivity|cbn; congruence|lia].
  - destruct (Z.eqb_spec c0 DASH) as [->|H0].
    2: { apply (step (Input (c0 :: c1 :: more)) rest); [reflexivity|cbn; congruence|lia]. }
    destruct (Z.eqb_spec c1 DASH) as [->|H1].
    + destruct more as [|m0 more']; [exists [], (Some rest); now split|].
      cbn [collect] in H. rewrite Z.eqb_refl in H. pose proof (split_equals_app (m0 :: more')) as Es.
      destruct (split_equals (m0 :: more')) as (name, given). destruct (find_name name) as [id|] eqn:Ef; [|discriminate].
      destruct (find_name_shape _ _ Ef) as [(-> & ->)|[(-> & ->)|(-> & [->| ->])]].
      * destruct given as [v|].
        -- apply (step (LongValued true v true) rest); [now rewrite Es|exact Logic.I|lia].
        -- destruct rest as [|v rest']; [discriminate|]. cbn [length] in Hn. apply (step (LongValued true v false) rest'); [now rewrite Es|exact Logic.I|lia].
      * destruct given as [v|].
        -- apply (step (LongValued false v true) rest); [now rewrite Es|exact Logic.I|lia].
        -- destruct rest as [|v rest']; [discriminate|]. cbn [length] in Hn. apply (step (LongValued false v false) rest'); [now rewrite Es|exact Logic.I|lia].
      * destruct given as [v|]; [discriminate|]. apply (step (LongFlag true) rest); [now rewrite Es|exact Logic.I|lia].
      * destruct given as [v|]; [discriminate|]. apply (step (LongFlag false) rest); [now rewrite Es|exact Logic.I|lia].
    + pose proof H as H'. rewrite collect_short in H' by exact H1. destruct (scan f (c1 :: more)) as [(f', r)|] eqn:Esc; [|discriminate].
      destruct (scan_shape _ _ _ _ Esc) as [(k & Ek & Er) | (k & s & v & Ek)].
      * destruct k as [|k]; [discriminate|]. apply (step (Flags k) rest); [now rewrite Ek|exact Logic.I|lia].
      * destruct v as [|x v].
        -- rewrite Ek in Esc. rewrite scan_valued in Esc. assert (Er : r = Some (s, None)) by congruence. rewrite Er in H'.
           destruct rest as [|v rest']; [discriminate|]. cbn [length] in Hn. apply (step (Valued k s v false) rest'); [now rewrite Ek|exact Logic.I|lia].
        -- apply (step (Valued k s (x :: v) true) rest); [now rewrite Ek|discriminate|lia].
Qed.

(** *** C74: the arguments are accepted exactly when they are a command line in which no option occurs twice, and then they mean
    what the command line says, in whatever order options and files are given *)
Theorem C74_arguments_mean_what_they_say : forall args m,
  parse args = Some m <-> exists items tail, command_line args items tail /\ says items tail m.
Proof.
  intros args m. unfold parse. split.
  - intros H. destruct (collect _ args) as [g|] eqn:Ec; [|discriminate].
    destruct (collect_complete _ _ _ _ (Nat.le_refl _) Ec) as (items & tail & Hcl). exists items, tail. split; [exact Hcl|].
    rewrite (collect_sound _ _ _ _ Hcl), absorb_all_eq in Ec. cbn [vals_s vals_o times_h frees app finish] in Ec. assert (Eg : g = finish (mkFound (concat (map (values true) items)) (concat (map (values false) items)) (0 + total_helps items) (concat (map inputs_of items))) tail) by congruence.
    rewrite Eg in H. unfold finish in H. cbn [vals_s vals_o times_h frees plus] in H.
    destruct (Nat.ltb_spec 1 (length (concat (map (values true) items)))); [discriminate|].
    destruct (Nat.ltb_spec 1 (length (concat (map (values false) items)))); [discriminate|].
    destruct (Nat.ltb_spec 1 (total_helps items)); [discriminate|]. cbn [orb] in H.
    assert (Em : m = mkMatches (Nat.eqb (total_helps items) 1) (hd_error (concat (map (values true) items))) (hd_error (concat (map (values false) items))) (concat (map inputs_of items) ++ tail_inputs tail)) by congruence.
    subst m. unfold says. cbn [opt_h opt_s opt_o free]. split; [reflexivity|]. split; [assumption|].
    split; [|split; [|reflexivity]].
    + destruct (concat (map (values true) items)) as [|a [|b l]]; try reflexivity. cbn [length] in *. lia.
    + destruct (concat (map (values false) items)) as [|a [|b l]]; try reflexivity. cbn [length] in *. lia.
  - intros (items & tail & Hcl & Hh & Hh1 & Hs & Ho & Hf). rewrite (collect_sound _ _ _ _ Hcl), absorb_all_eq. unfold finish. cbn [vals_s vals_o times_h frees app plus].
    rewrite Hs, Ho, <- Hf, <- Hh. destruct (Nat.ltb_spec 1 (total_helps items)); [lia|]. destruct m as [h s o fr]; cbn [opt_h opt_s opt_o free].
    destruct s, o; reflexivity.
Qed.

Section Props.
Context {F : Type} (O : FOps F) (K : ldpc) (E : ed25519) (equalize : list Z -> list Z)
  (features_of : array2 Z -> nat -> outcome (list F)) (checks : bool) (pad : list bool) {format : Type} (os : platform format).
Notation process := (Cli.process O K E equalize features_of checks pad os).
Notation process_inputs := (Cli.process_inputs O K E equalize features_of checks pad os).
Notation process_input := (Cli.process_input O K E equalize features_of checks pad os).
Notation prepare := (Cli.prepare O K E equalize features_of checks pad os).
Notation run := (Getopts.run O K E equalize features_of checks pad os).
Notation output_location := (PropsCli.output_location os).

(** *** C74: the whole program *)
Theorem C74_run : forall w program args,
  (* refused arguments: panic, nothing happens *)
  ((~ exists items tail m, command_line args items tail /\ says items tail m) -> run w (program :: args) = (w, Panicked UnwrapErr))
  /\ (forall items tail m, command_line args items tail -> says items tail m ->
        (* help asked for, or no files: nothing happens *)
        (total_helps items = 1%nat \/ concat (map inputs_of items) ++ tail_inputs tail = [] -> run w (program :: args) = (w, Done))
        (* otherwise the files are processed in the order given, with the options wherever they stood *)
        /\ (total_helps items = 0%nat -> concat (map inputs_of items) ++ tail_inputs tail <> [] ->
            run w (program :: args) = process w (concat (map inputs_of items) ++ tail_inputs tail) (opt_s m) (opt_o m))).
Proof.
  intros w program args. unfold Getopts.run, main. split.
  - intros H. destruct (parse args) as [m|] eqn:Ep; [|reflexivity]. elim H. apply C74_arguments_mean_what_they_say in Ep. destruct Ep as (items & tail & Hm). exists items, tail, m. exact Hm.
  - intros items tail m Hc Hs. assert (Ep : parse args = Some m) by (apply C74_arguments_mean_what_they_say; now exists items, tail). rewrite Ep.
    destruct Hs as (Hh & Hh1 & Hs & Ho & Hf). rewrite Hh, Hf. split.
    + intros [-> | ->]; [reflexivity|]. destruct (Nat.eqb _ 1); reflexivity.
    + intros -> Hn. cbn [Nat.eqb]. destruct (concat (map inputs_of items) ++ tail_inputs tail); [congruence|reflexivity].
Qed.

(** *** C75: an input that is the output of an earlier input is overwritten before it is read *)
Definition same_but (l : list Z) (w w' : world) : Prop :=
  (forall x, x <> l -> content w x = content w' x) /\ folders_requested w = folders_requested w'.
Definition same_world (w w' : world) : Prop := (forall x, content w x = content w' x) /\ folders_requested w = folders_requested w'.

Lemma prepare_reads_only_input w w' input suffix output : content w (locate os input) = content w' (locate os input) ->
  prepare w input suffix output = prepare w' input suffix output.
Proof. intros H. unfold Cli.prepare, open_image. now rewrite H. Qed.

Lemma process_input_same_but l w w' input suffix output : same_but l w w' -> locate os input <> l ->
  snd (process_input w input suffix output) = snd (process_input w' input suffix output)
  /\ same_but l (fst (process_input w input suffix output)) (fst (process_input w' input suffix output))
  /\ (snd (process_input w input suffix output) = Done -> output_location suffix output input l ->
      content (fst (process_input w input suffix output)) l = content (fst (process_input w' input suffix output)) l \/ ~ exists path, locate os path = l /\ exists m, prepare w input suffix output = Ok (m, path)).
Proof.
  intros (Hc & Hf) Hl. unfold Cli.process_input. rewrite <- (prepare_reads_only_input w w') by now apply Hc.
  destruct (prepare w input suffix output) as [(m, path)| |] eqn:Ep; cbn [fst snd].
  2, 3: split; [reflexivity|]; split; [now split|]; discriminate.
  destruct (can_create os path); cbn [fst snd]; [|split; [reflexivity|]; split; [now split|]; discriminate].
  destruct (format_from_path os path) as [fm|]; cbn [fst snd].
  - destruct (encode_bytes os fm m) as (d, ok). cbn [fst snd]. split; [reflexivity|]. split.
    + split; [|exact Hf]. intros x Hx. unfold put. cbn [content]. destruct (bytes_eqb x (locate os path)); [reflexivity|]. now apply Hc.
    + intros _ _. destruct (list_eq_dec Z.eq_dec l (locate os path)) as [->|Hn]; [left; now rewrite !put_here|].
      right. intros (p & Hp & m' & Ee). assert (p = path) by congruence. subst p. now apply Hn.
  - split; [reflexivity|]. split; [|discriminate]. split; [|exact Hf]. intros x Hx. unfold put. cbn [content]. destruct (bytes_eqb x (locate os path)); [reflexivity|]. now apply Hc.
Qed.

Lemma process_input_done_output w input suffix output l : snd (process_input w input suffix output) = Done -> output_location suffix output input l ->
  exists m path, prepare w input suffix output = Ok (m, path) /\ locate os path = l.
Proof.
  unfold Cli.process_input. destruct (prepare w input suffix output) as [(m, path)| |] eqn:Ep; try discriminate. intros _ (s & e & p & Hn & Ho & ->).
  exists m, path. split; [reflexivity|]. destruct (prepare_output _ _ _ _ _ _ _ _ _ _ _ _ _ _ Ep) as (s' & e' & Hn' & Ho').
  destruct (names_unique _ _ _ _ _ Hn Hn') as (<- & <-). f_equal. unfold PropsCli.output_path in *. destruct output.
  - destruct Ho as (f1 & C1 & ->), Ho' as (f2 & C2 & ->). congruence.
  - congruence.
Qed.

Lemma process_inputs_same_world inputs suffix output : forall w w', same_world w w' ->
  snd (process_inputs w inputs suffix output) = snd (process_inputs w' inputs suffix output)
  /\ same_world (fst (process_inputs w inputs suffix output)) (fst (process_inputs w' inputs suffix output)).
Proof.
  induction inputs as [|i r IH]; intros w w' Hw; [now split|]. cbn [Cli.process_inputs].
  assert (S : snd (process_input w i suffix output) = snd (process_input w' i suffix output) /\ same_world (fst (process_input w i suffix output)) (fst (process_input w' i suffix output))).
  { destruct Hw as (Hc & Hf). unfold Cli.process_input. rewrite <- (prepare_reads_only_input w w') by apply Hc.
    assert (P : forall x y u u', same_world u u' -> same_world (put u x y) (put u' x y)).
    { intros x y u u' (Hu & Hv). split; [|exact Hv]. intros z. unfold put. cbn [content]. destruct (bytes_eqb z x); [reflexivity|apply Hu]. }
    assert (W : same_world w w') by now split.
    destruct (prepare w i suffix output) as [(m, path)| |]; cbn [fst snd]; try (split; [reflexivity|exact W]).
    destruct (can_create os path); cbn [fst snd]; try (split; [reflexivity|exact W]). destruct (format_from_path os path); cbn [fst snd]; [|split; [reflexivity|auto]].
    destruct (encode_bytes os f m); cbn [fst snd]. split; [reflexivity|auto]. }
  destruct (process_input w i suffix output) as (u, st), (process_input w' i suffix output) as (u', st'). cbn [fst snd] in S. destruct S as (<- & S).
  destruct st; try (split; [reflexivity|exact S]). now apply IH.
Qed.

Lemma process_inputs_same_but l inputs suffix output : (forall i, In i inputs -> locate os i <> l) -> forall w w', same_but l w w' ->
  snd (process_inputs w inputs suffix output) = snd (process_inputs w' inputs suffix output)
  /\ same_but l (fst (process_inputs w inputs suffix output)) (fst (process_inputs w' inputs suffix output)).
Proof.
  intros Hin. induction inputs as [|i r IH]; intros w w' Hw; [now split|]. cbn [Cli.process_inputs].
  destruct (process_input_same_but l w w' i suffix output Hw (Hin i (or_introl eq_refl))) as (S1 & S2 & _).
  destruct (process_input w i suffix output) as (u, st), (process_input w' i suffix output) as (u', st'). cbn [fst snd] in S1, S2. subst st'.
  destruct st; try (split; [reflexivity|exact S2]). apply IH; [|exact S2]. intros x Hx. apply Hin. now right.
Qed.

(** The old content of a file that is the output of the input [a], and is not read up to then, has no influence on the run at all:
    two runs that differ only in that file end alike and leave the same files. *)
Theorem C75_overwritten_file_is_never_read : forall w w' before a after suffix output location,
  same_but location w w' ->
  (forall i, In i (before ++ [a]) -> locate os i <> location) ->
  output_location suffix output a location ->
  snd (process w (before ++ [a]) (Some suffix) output) = Done ->
  snd (process w (before ++ a :: after) (Some suffix) output) = snd (process w' (before ++ a :: after) (Some suffix) output)
  /\ same_world (fst (process w (before ++ a :: after) (Some suffix) output)) (fst (process w' (before ++ a :: after) (Some suffix) output)).
Proof.
  intros w w' before a after suffix output l Hw Hin Hout Hd.
  assert (G : forall u u', same_but l u u' -> snd (process_inputs u (before ++ [a]) suffix output) = Done ->
    snd (process_inputs u (before ++ a :: after) suffix output) = snd (process_inputs u' (before ++ a :: after) suffix output)
    /\ same_world (fst (process_inputs u (before ++ a :: after) suffix output)) (fst (process_inputs u' (before ++ a :: after) suffix output))).
  { intros u u' Hu Hdone. rewrite process_inputs_app in Hdone. rewrite !process_inputs_app.
    destruct (process_inputs_same_but l before suffix output ltac:(intros i Hi; apply Hin; apply in_or_app; now left) u u' Hu) as (B1 & B2).
    destruct (process_inputs u before suffix output) as (v, st), (process_inputs u' before suffix output) as (v', st'). cbn [fst snd] in B1, B2. subst st'.
    destruct st; try discriminate Hdone. cbn [Cli.process_inputs] in Hdone |- *.
    assert (Ha : locate os a <> l) by (apply Hin; apply in_or_app; right; now left).
    destruct (process_input_same_but l v v' a suffix output B2 Ha) as (A1 & A2 & A3).
    assert (Ad : snd (process_input v a suffix output) = Done) by (destruct (process_input v a suffix output) as (x, st); destruct st; try discriminate Hdone; reflexivity).
    specialize (A3 Ad Hout). destruct (process_input_done_output _ _ _ _ _ Ad Hout) as (m & path & Ep & El).
    assert (A4 : content (fst (process_input v a suffix output)) l = content (fst (process_input v' a suffix output)) l).
    { destruct A3 as [A3|A3]; [exact A3|]. elim A3. exists path. split; [exact El|]. now exists m. }
    assert (SW : same_world (fst (process_input v a suffix output)) (fst (process_input v' a suffix output))).
    { destruct A2 as (A2 & A2f). split; [|exact A2f]. intros x. destruct (list_eq_dec Z.eq_dec x l) as [->|Hx]; [exact A4|now apply A2]. }
    destruct (process_input v a suffix output) as (x, st), (process_input v' a suffix output) as (x', st'). cbn [fst snd] in *. subst st st'.
    now apply process_inputs_same_world. }
  unfold Cli.process in *. destruct output as [o|]; [|now apply G].
  assert (Hw2 : same_but l (mkWorld (content w) (o :: folders_requested w)) (mkWorld (content w') (o :: folders_requested w'))).
  { destruct Hw as (Hc & Hf). split; [exact Hc|]. cbn. congruence. }
  destruct (kind os o); try discriminate Hd; destruct (can_make_folder os o); try discriminate Hd; now apply G.
Qed.

(** Which names are in danger: without an output folder the output of [a] has the very name of the input [b] exactly when the stem of
    [b] is that of [a] with -SUFFIX appended (as after a second run over all pictures of a folder). *)
Theorem C75_input_name_is_an_output_name_iff : forall suffix sa ea sb eb,
  no_dot ea -> no_dot eb -> (output_name suffix sa ea = sb ++ [DOT] ++ eb <-> sb = sa ++ [HYPHEN] ++ suffix /\ eb = ea).
Proof.
  intros suffix sa ea sb eb Da Db. unfold output_name. split; [|intros (-> & ->); now rewrite <- !app_assoc].
  intros H. replace (sa ++ [HYPHEN] ++ suffix ++ [DOT] ++ ea) with ((sa ++ [HYPHEN] ++ suffix) ++ DOT :: ea) in H by now rewrite <- !app_assoc.
  pose proof (rsplit_dot_intro (sa ++ [HYPHEN] ++ suffix) ea Da) as R. rewrite H in R. cbn [app] in R. rewrite (rsplit_dot_intro sb eb Db) in R. cbn [app]. split; congruence.
Qed.
(** ... so no input overwrites itself. *)
Theorem C75_no_input_overwrites_itself : forall suffix s e, no_dot e -> output_name suffix s e <> s ++ [DOT] ++ e.
Proof.
  intros suffix s e He H. apply C75_input_name_is_an_output_name_iff in H; try assumption. destruct H as (H & _).
  apply (f_equal (@length Z)) in H. rewrite !app_length in H. cbn [length] in H. lia.
Qed.

(** *** C52: hidden files and names without a dot have no extension: their stem is the whole name and the tool refuses them *)
Theorem C52_names_without_extension : forall dir name trail, folder_part dir -> blank trail -> no_slash name -> name <> [] -> name <> [DOT] -> name <> [DOT; DOT] ->
  no_dot name \/ (exists rest, name = DOT :: rest /\ no_dot rest) ->
  let path := dir ++ name ++ trail in
  file_stem path = Some name /\ extension path = None
  /\ forall w before suffix output w1 after, process w before (Some suffix) output = (w1, Done) ->
     exists r, process w (before ++ path :: after) (Some suffix) output = (w1, Panicked r).
Proof.
  intros dir name trail Hd Ht Hs H0 H1 H2 Hname path. assert (En : file_name path = Some name) by now apply file_name_intro.
  assert (Er : rsplit_dot name = None \/ exists r, rsplit_dot name = Some ([], r)).
  { destruct Hname as [Hn | (r & -> & Hn)]; [left|right; exists r; exact (rsplit_dot_intro [] r Hn)].
    destruct (rsplit_dot name) as [(a, b)|] eqn:Er; [|reflexivity]. destruct (rsplit_dot_elim _ _ _ Er) as (-> & _). elim Hn. apply in_or_app. right. now left. }
  assert (Es : file_stem path = Some name /\ extension path = None).
  { unfold file_stem, extension. rewrite En. destruct Er as [-> | (r & ->)]; split; reflexivity. }
  destruct Es as (Es & Ee). split; [exact Es|]. split; [exact Ee|]. intros w before suffix output w1 after Hb.
  apply (C53_unusable_input_changes_nothing _ _ _ _ _ _ _ _ _ _ _ _ _ _ Hb). right. left. intros s e Hn. apply names_iff in Hn. rewrite Ee in Hn. destruct Hn; discriminate.
Qed.
End Props.

(** ** Witnesses *)
(** sia -o out a.png -hs w   and   sia b.png -sw -- -x.png *)
Definition w_a := [97; 46; 112; 110; 103].
Definition w_x := [45; 120; 46; 112; 110; 103].
Example C74_instance :
  parse [w_a; [45; 115]; [119]; [45; 45; 111; 61; 122]] = Some (mkMatches false (Some [119]) (Some [122]) [w_a])
  /\ parse [[45; 115; 119]; w_a; [45; 45]; w_x] = Some (mkMatches false (Some [119]) None [w_a; w_x])
  /\ parse [[45; 104; 115]; [119]; w_a] = Some (mkMatches true (Some [119]) None [w_a])
  /\ parse [[45; 115; 119]; [45; 115; 119]] = None /\ parse [w_a; [45; 115]] = None /\ parse [w_x] = None
  /\ (exists items tail, command_line [[45; 115; 119]; w_a; [45; 45]; w_x] items tail /\ says items tail (mkMatches false (Some [119]) None [w_a; w_x])).
Proof.
  repeat (split; [reflexivity|]). exists [Valued 0 true [119] true; Input w_a], (Some [w_x]). split; [split|].
  - constructor; [discriminate|]. constructor; [intros c t; discriminate|constructor].
  - reflexivity.
  - unfold says. cbn. repeat split; lia.
Qed.
Example C52_hidden_instance : file_stem [97; 47; 46; 112; 110; 103] = Some [46; 112; 110; 103] /\ extension [97; 47; 46; 112; 110; 103] = None.
Proof. split; reflexivity. Qed.

(** a/p.png is written to p-w.png, which is the second input: what it contained does not matter. *)
Opaque PropsImage.colour512 watermark_image.
Definition toy_again (old : list Z) : world := mkWorld (fun l =>
  if bytes_eqb l str_a_p then Some [0] else if bytes_eqb l str_p_w then Some old else None) [].
Notation toy_process2 := (process Bops Toy.toy_ldpc PropsProcess2.toy_ed (fun l => l) PropsProcess2.toy_features_f64 true (repeat false 8) toy_os).
Lemma C75_toy_done old : snd (toy_process2 (toy_again old) ([] ++ [str_a_p]) (Some [119]) None) = Done.
Proof.
  destruct PropsImage.C42_C59_C60_instance as (m & Em & _).
  destruct (C52_every_input_gets_its_output Bops Toy.toy_ldpc PropsProcess2.toy_ed (fun l => l) PropsProcess2.toy_features_f64 true (repeat false 8) toy_os (toy_again old) [mkJob str_a_p [112] str_png 0 PropsImage.colour512 m [7] str_p_w] [119] None) as (w' & Er & _ & _).
  - intros [H | []]. discriminate.
  - exact Logic.I.
  - apply Forall_cons; [|apply Forall_nil]. unfold processable. cbn [source PropsCli.stem PropsCli.ext PropsCli.fmt picture marked PropsCli.data PropsCli.target].
    split; [exact names_a_p|]. split; [reflexivity|]. split; [exists [0]; split; reflexivity|]. split; [exact Em|]. split; [reflexivity|]. split; reflexivity.
  - intros j k [ <- |[]] [ <- |[]]. discriminate.
  - cbn [map source] in Er. cbn [app]. rewrite Er. reflexivity.
Qed.
Example C75_instance : forall old old',
  snd (toy_process2 (toy_again old) ([] ++ str_a_p :: [str_p_w]) (Some [119]) None) = snd (toy_process2 (toy_again old') ([] ++ str_a_p :: [str_p_w]) (Some [119]) None)
  /\ same_world (fst (toy_process2 (toy_again old) ([] ++ str_a_p :: [str_p_w]) (Some [119]) None)) (fst (toy_process2 (toy_again old') ([] ++ str_a_p :: [str_p_w]) (Some [119]) None)).
Proof.
  intros old old'.
  assert (H1 : same_but str_p_w (toy_again old) (toy_again old')).
  { split; [|reflexivity]. intros x Hx. unfold toy_again. cbn [content]. rewrite (bytes_eqb_neq x str_p_w Hx). reflexivity. }
  assert (H2 : forall i, In i ([] ++ [str_a_p]) -> locate toy_os i <> str_p_w) by (intros i [<-|[]]; discriminate).
  assert (H3 : output_location toy_os [119] None str_a_p str_p_w).
  { exists [112], str_png, str_p_w. split; [exact names_a_p|]. split; reflexivity. }
  exact (C75_overwritten_file_is_never_read Bops Toy.toy_ldpc PropsProcess2.toy_ed (fun l => l) PropsProcess2.toy_features_f64 true (repeat false 8) toy_os
    (toy_again old) (toy_again old') [] str_a_p [str_p_w] [119] None str_p_w H1 H2 H3 (C75_toy_done old)).
Qed.

Print Assumptions C74_arguments_mean_what_they_say.
Print Assumptions C74_run.
Print Assumptions C75_overwritten_file_is_never_read.
Print Assumptions C75_input_name_is_an_output_name_iff.
Print Assumptions C75_no_input_overwrites_itself.
Print Assumptions C52_names_without_extension.
Print Assumptions C74_spelling.
