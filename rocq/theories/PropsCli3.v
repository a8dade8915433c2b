(** Property C75, positive part: every input is read as the earlier inputs of the run left it (lib/sia/rust/cli/src/main.rs:16-76). *)
From Verif Require Import Outcome Floats Bits Encoding Matrix Signature Process Image Cli PropsCli PropsCli2.
Open Scope Z_scope.

Section Props.
Context {F : Type} (O : FOps F) (K : ldpc) (E : ed25519) (equalize : list Z -> list Z)
  (features_of : array2 Z -> nat -> outcome (list F)) (checks : bool) (pad : list bool) {format : Type} (os : platform format).
Notation process := (process O K E equalize features_of checks pad os).
Notation process_inputs := (process_inputs O K E equalize features_of checks pad os).
Notation job := (@job format).
Notation processable := (processable O K E equalize features_of checks pad os).

(** The content [c] of the file at [location] once [jobs] are done, starting from [w]: what the last job with that target wrote, or what was
    there before. *)
Definition left_by (w : world) (jobs : list job) (location : list Z) (c : option (list Z)) : Prop :=
  (exists before j after, jobs = before ++ j :: after /\ locate os (target j) = location
     /\ (forall k, In k after -> locate os (target k) <> location) /\ c = Some (data j))
  \/ ((forall j, In j jobs -> locate os (target j) <> location) /\ c = content w location).

Lemma left_by_snoc w jobs j l c : left_by w jobs l c -> left_by w (jobs ++ [j]) l (if bytes_eqb l (locate os (target j)) then Some (data j) else c).
Proof.
  intros H. destruct (list_eq_dec Z.eq_dec l (locate os (target j))) as [->|Hne].
  - rewrite bytes_eqb_refl. left. exists jobs, j, []. split; [reflexivity|]. split; [reflexivity|]. split; [intros k []|reflexivity].
  - rewrite bytes_eqb_neq by exact Hne. destruct H as [(b & k & a & -> & Hk & Ha & ->)|(Hn & ->)].
    + left. exists b, k, (a ++ [j]). split; [now rewrite <- app_assoc|]. split; [exact Hk|]. split; [|reflexivity].
      intros x Hx. apply in_app_or in Hx as [Hx|[<-|[]]]; [now apply Ha|congruence].
    + right. split; [|reflexivity]. intros x Hx. apply in_app_or in Hx as [Hx|[<-|[]]]; [now apply Hn|congruence].
Qed.

Lemma process_stages w suffix output : no_slash suffix -> forall rest done, 
  (forall before j after, done ++ rest = before ++ j :: after -> forall seen, left_by w before (locate os (source j)) (content seen (locate os (source j))) -> processable seen suffix output j) ->
  forall w0, (forall l, left_by w done l (content w0 l)) ->
  exists w', process_inputs w0 (map source rest) suffix output = (w', Done) /\ (forall l, left_by w (done ++ rest) l (content w' l)).
Proof.
  intros Hsuf. induction rest as [|j rest IH]; intros done Hall w0 Hw0.
  - exists w0. split; [reflexivity|]. now rewrite app_nil_r.
  - assert (Hj : processable w0 suffix output j) by (apply (Hall done j rest eq_refl); apply Hw0).
    cbn [map Cli.process_inputs]. rewrite (process_input_good _ _ _ _ _ _ _ _ _ _ _ _ Hsuf Hj). set (w1 := put _ _ _).
    destruct (IH (done ++ [j])) with (w0 := w1) as (w' & Er & Hw').
    + rewrite <- app_assoc. exact Hall.
    + intros l. pose proof (left_by_snoc w done j l _ (Hw0 l)) as H. replace (content w1 l) with (if bytes_eqb l (locate os (target j)) then Some (data j) else content w0 l); [exact H|].
      unfold w1, put. cbn [content]. destruct (bytes_eqb l (locate os (target j))); reflexivity.
    + exists w'. split; [exact Er|]. rewrite <- app_assoc in Hw'. exact Hw'.
Qed.

(** *** C75: the inputs are processed strictly in order.  If every input can be processed in the state the inputs before it leave behind,
    the run succeeds and every file holds what the last job for it wrote. *)
Theorem C75_every_input_is_read_as_the_earlier_ones_left_it : forall w jobs suffix output,
  no_slash suffix -> folder_ok os output ->
  (forall before j after, jobs = before ++ j :: after ->
     forall seen, left_by w before (locate os (source j)) (content seen (locate os (source j))) -> processable seen suffix output j) ->
  exists w', process w (map source jobs) (Some suffix) output = (w', Done) /\ forall location, left_by w jobs location (content w' location).
Proof.
  intros w jobs suffix output Hsuf Hfo Hall. unfold Cli.process.
  assert (N : forall w0, content w0 = content w -> forall l, left_by w [] l (content w0 l)) by (intros w0 Ew l; right; split; [intros j []|now rewrite Ew]).
  destruct output as [o|].
  - destruct Hfo as (Hk & Hm). rewrite Hm. set (w1 := mkWorld _ _).
    destruct (process_stages w suffix (Some o) Hsuf jobs [] Hall w1 (N w1 eq_refl)) as (w' & Er & H1).
    exists w'. split; [|exact H1]. destruct (kind os o); [exact Er|exact Er|congruence].
  - exact (process_stages w suffix None Hsuf jobs [] Hall w (N w eq_refl)).
Qed.

(** In particular for two inputs, the second being the first one's output: it is the watermarked picture that is watermarked again. *)
Theorem C75_an_output_that_is_a_later_input_is_watermarked_again : forall w a b suffix output,
  no_slash suffix -> folder_ok os output -> processable w suffix output a -> locate os (source b) = locate os (target a) ->
  processable (put w (locate os (target a)) (data a)) suffix output b ->
  decode_bytes os (fmt b) (data a) = Some (picture b)
  /\ exists w', process w [source a; source b] (Some suffix) output = (w', Done)
     /\ content w' (locate os (target b)) = Some (data b)
     /\ (locate os (target b) <> locate os (target a) -> content w' (locate os (target a)) = Some (data a)).
Proof.
  intros w a b suffix output Hsuf Hfo Ha Hl Hb. split.
  - destruct Hb as (_ & _ & (bytes & Hc & Hd) & _). rewrite Hl, put_here in Hc. assert (bytes = data a) by congruence. subst bytes. exact Hd.
  - assert (Same : forall u v j, content u (locate os (source j)) = content v (locate os (source j)) -> processable u suffix output j -> processable v suffix output j).
    { intros u v j Euv (H1 & H2 & (bytes & H3 & H4) & H5). split; [exact H1|]. split; [exact H2|]. split; [exists bytes; rewrite <- Euv; auto|exact H5]. }
    destruct (C75_every_input_is_read_as_the_earlier_ones_left_it w [a; b] suffix output Hsuf Hfo) as (w' & Er & H).
    { intros [|x [|y before]] j after Heq seen Hs.
      - cbn [app] in Heq. assert (j = a) by congruence. subst j. destruct Hs as [(bf & k & af & E1 & _)|(_ & E1)]; [destruct bf; discriminate E1|]. now apply (Same w).
      - cbn [app] in Heq. assert (x = a /\ j = b) as (-> & ->) by (split; congruence).
        destruct Hs as [(bf & k & af & E1 & E2 & E3 & E4)|(E1 & _)].
        + destruct bf as [|? [|? ?]]; try discriminate E1. cbn [app] in E1. assert (k = a) by congruence. subst k. apply (Same (put w (locate os (target a)) (data a))); [|exact Hb].
          rewrite E4, Hl. apply put_here.
        + elim (E1 a (or_introl eq_refl)). now symmetry.
      - cbn [app] in Heq. assert (Hc : [] = before ++ j :: after) by congruence. destruct before; discriminate Hc. }
    exists w'. split; [exact Er|]. split.
    + destruct (H (locate os (target b))) as [(bf & k & af & E1 & E2 & E3 & E4)|(E1 & _)]; [|elim (E1 b); [right; now left|reflexivity]].
      destruct bf as [|? [|? [|? ?]]]; try discriminate E1; cbn [app] in E1.
      * assert (k = a /\ af = [b]) as (-> & ->) by (split; congruence). elim (E3 b (or_introl eq_refl)). reflexivity.
      * assert (k = b) by congruence. subst k. exact E4.
    + intros Hne. destruct (H (locate os (target a))) as [(bf & k & af & E1 & E2 & E3 & E4)|(E1 & _)]; [|elim (E1 a); [now left|reflexivity]].
      destruct bf as [|? [|? [|? ?]]]; try discriminate E1; cbn [app] in E1.
      * assert (k = a) by congruence. subst k. exact E4.
      * assert (k = b) by congruence. subst k. congruence.
Qed.
End Props.

(** ** Witness: a/p.png is written to p-w.png, which is the second input and is written to p-w-w.png *)
Opaque PropsImage.colour512 watermark_image.
Definition chain_os : platform Z := mkPlatform Z (fun p => p) (fun p => Absent) (fun _ => true) (fun p => Some p) (fun _ => true)
  (fun e => if bytes_eqb e str_png then Some 0 else None)
  (fun f bytes => match bytes with [n] => Some PropsImage.colour512 | _ => None end)
  (fun f _ => ([5], true)).
Definition chain_world : world := mkWorld (fun l => if bytes_eqb l str_a_p then Some [0] else if bytes_eqb l str_p_w then Some [1; 2; 3] else None) [].
Definition str_p_w_w := [112; 45; 119; 45; 119; 46; 112; 110; 103].
Lemma names_p_w : names str_p_w [112; 45; 119] str_png.
Proof. exists [], []. repeat split; try discriminate; try (now left); try constructor; intros H; cbn in H; unfold SLASH, DOT in H; lia. Qed.
Example C75_chain_instance : exists w',
  process Bops Toy.toy_ldpc PropsProcess2.toy_ed (fun l => l) PropsProcess2.toy_features_f64 true (repeat false 8) chain_os chain_world [str_a_p; str_p_w] (Some [119]) None = (w', Done)
  /\ content w' str_p_w_w = Some [5] /\ content w' str_p_w = Some [5].
Proof.
  destruct PropsImage.C42_C59_C60_instance as (m & Em & _).
  destruct (C75_an_output_that_is_a_later_input_is_watermarked_again Bops Toy.toy_ldpc PropsProcess2.toy_ed (fun l => l) PropsProcess2.toy_features_f64 true (repeat false 8) chain_os chain_world
    (mkJob str_a_p [112] str_png 0 PropsImage.colour512 m [5] str_p_w) (mkJob str_p_w [112; 45; 119] str_png 0 PropsImage.colour512 m [5] str_p_w_w) [119] None) as (_ & w' & Er & H1 & H2).
  - intros [H | []]. discriminate.
  - exact Logic.I.
  - unfold processable. cbn [source PropsCli.stem PropsCli.ext PropsCli.fmt picture marked PropsCli.data PropsCli.target].
    split; [exact names_a_p|]. split; [reflexivity|]. split; [exists [0]; split; reflexivity|]. split; [exact Em|]. split; [reflexivity|]. split; reflexivity.
  - reflexivity.
  - unfold processable. cbn [source PropsCli.stem PropsCli.ext PropsCli.fmt picture marked PropsCli.data PropsCli.target].
    split; [exact names_p_w|]. split; [reflexivity|]. split; [exists [5]; split; [apply put_here|reflexivity]|]. split; [exact Em|]. split; [reflexivity|]. split; reflexivity.
  - exists w'. split; [exact Er|]. split; [exact H1|]. apply H2. discriminate.
Qed.

Print Assumptions C75_every_input_is_read_as_the_earlier_ones_left_it.
Print Assumptions C75_an_output_that_is_a_later_input_is_watermarked_again.
