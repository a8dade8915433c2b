(** Properties C71 and C72: what the web page shows, for every order in which its asynchronous loads finish (src/Content/Content.tsx,
    src/Canvas/Canvas.tsx). *)
From Coq Require Import String Reals.
From Flocq Require Import Core BinarySingleNaN.
From Verif Require Import Outcome Floats Bits ListFacts Encoding Matrix Signature Process Image PropsImage Web PropsWeb Front PropsFront.
Open Scope Z_scope.

(** ** Specification vocabulary, on histories of events only *)
Section Spec.
Context {P : Type} (library : list Z -> option P).
(** The files selected so far, in order; ticket k is the k-th of them. *)
Definition selected (h : list event) : list file := flat_map (fun e => match e with Select (Some f) => [f] | _ => [] end) h.
(** The texts the page tried to load, in the order in which the loads finished. *)
Definition finished (h : list event) : list (list Z) :=
  flat_map (fun e => match e with
    | DefaultLoaded url => [url]
    | FileRead t => match nth_error (selected h) t with Some f => [file_to_base64 f] | None => [] end
    | _ => [] end) h.
(** The result of loading one text: the page's process, if decoding and the library both succeed. *)
Definition loads_as (text : list Z) (p : P) : Prop := exists content, base64_to_uint8_array text = Some content /\ library content = Some p.
Definition fails (text : list Z) : Prop := forall p, ~ loads_as text p.
(** The last text in the list that loads, loads as [p]. *)
Definition last_success (texts : list (list Z)) (p : P) : Prop :=
  exists earlier text later, texts = (earlier ++ text :: later)%list /\ loads_as text p /\ Forall fails later.
End Spec.

(** ** helpers *)
Section Proofs.
Context {P : Type} (library : list Z -> option P).
Notation step := (step library). Notation run := (run library). Notation attempt := (attempt library).
Definition eval (text : list Z) : option P := match base64_to_uint8_array text with Some b => library b | None => None end.
Fixpoint newest (texts : list (list Z)) (acc : option P) : option P :=
  match texts with [] => acc | t :: r => newest r (match eval t with Some p => Some p | None => acc end) end.

Lemma eval_loads text p : eval text = Some p <-> loads_as library text p.
Proof.
  unfold eval, loads_as. destruct (base64_to_uint8_array text) as [b|]; split; intros H; try discriminate; [eauto|destruct H as (c & E & H); congruence|destruct H as (c & E & _); discriminate].
Qed.
Lemma eval_fails text : eval text = None <-> fails library text.
Proof.
  split.
  - intros E p H. apply eval_loads in H. congruence.
  - intros H. destruct (eval text) as [p|] eqn:E; [|reflexivity]. exfalso. apply (H p). now apply eval_loads.
Qed.
Lemma newest_app a b acc : newest (a ++ b) acc = newest b (newest a acc).
Proof. revert acc. induction a as [|x a IH]; intros acc; [reflexivity|]. cbn [app newest]. apply IH. Qed.
Lemma newest_spec texts acc p : newest texts acc = Some p <-> last_success library texts p \/ (Forall (fails library) texts /\ acc = Some p).
Proof.
  revert acc. induction texts as [|x t IH]; intros acc; cbn [newest].
  - split; [intros ->; right; split; [constructor|reflexivity]|]. intros [(e & y & l & E & _)|(_ & E)]; [destruct e; discriminate|exact E].
  - rewrite IH. destruct (eval x) as [q|] eqn:Ex.
    + split.
      * intros [(e & y & l & -> & H1 & H2)|(HF & E)]; left; [exists (x :: e), y, l; split; [reflexivity|split; assumption]|].
        exists [], x, t. split; [reflexivity|]. split; [apply eval_loads; congruence|exact HF].
      * intros [(e & y & l & E & H1 & H2)|(HF & E)].
        -- destruct e as [|z e]; cbn [app] in E; injection E as -> ->; [right; split; [exact H2|apply eval_loads in H1; congruence]|left; exists e, y, l; split; [reflexivity|split; assumption]].
        -- exfalso. inversion HF as [|? ? Hx _]; subst. apply eval_fails in Hx. congruence.
    + split.
      * intros [(e & y & l & -> & H1 & H2)|(HF & E)]; [left; exists (x :: e), y, l; split; [reflexivity|split; assumption]|right; split; [constructor; [now apply eval_fails|exact HF]|exact E]].
      * intros [(e & y & l & E & H1 & H2)|(HF & E)].
        -- destruct e as [|z e]; cbn [app] in E; injection E as -> ->; [exfalso; apply eval_loads in H1; congruence|left; exists e, y, l; split; [reflexivity|split; assumption]].
        -- right. split; [now inversion HF|exact E].
Qed.

Lemma run_app s a b : run s (a ++ b) = match run s a with Some s' => run s' b | None => None end.
Proof. revert s. induction a as [|e a IH]; intros s; cbn [app run]; [reflexivity|]. destruct (step s e); [apply IH|reflexivity]. Qed.

Lemma take_in t l g r : take t l = Some (g, r) -> In (t, g) l /\ incl r l.
Proof.
  revert g r. induction l as [|(k, f) l IH]; intros g r H; cbn [take] in H; [discriminate|].
  destruct (Nat.eqb_spec k t) as [->|Hk].
  - assert (f = g) by congruence. assert (l = r) by congruence. subst. split; [now left|intros x Hx; now right].
  - destruct (take t l) as [(g', r')|]; [|discriminate]. assert (g' = g) by congruence. assert ((k, f) :: r' = r) by congruence. subst.
    destruct (IH g r' eq_refl) as (H1 & H2). split; [now right|]. intros x [<-|Hx]; [now left|right; now apply H2].
Qed.
Lemma attempt_eq s text : attempt s text =
  mkPage (wasm_ready s) (inits s) (defaults s) (readers s) (tickets s) (match eval text with Some p => Some p | None => watermarking_process s end)
    (match base64_to_uint8_array text with Some b => (wasm_ready s, b) :: calls s | None => calls s end).
Proof. unfold Front.attempt, eval. destruct s; cbn. destruct (base64_to_uint8_array text) as [b|]; [|reflexivity]. destruct (library b); reflexivity. Qed.

(** Invariant of every reachable state. *)
Record invariant (h : list event) (s : page) : Prop := {
  inv_tickets : tickets s = length (selected h);
  inv_readers : forall t f, In (t, f) (readers s) -> nth_error (selected h) t = Some f;
  inv_default : (0 < defaults s)%nat -> wasm_ready s = true;
  inv_shown : watermarking_process s <> None -> wasm_ready s = true;
  inv_reading : readers s <> [] -> wasm_ready s = true;
  inv_calls : Forall (fun c : bool * list Z => fst c = true) (calls s);
  inv_reads : forall t, In (FileRead t) h -> (t < length (selected h))%nat;
  inv_newest : watermarking_process s = newest (finished h) None
}.

Lemma selected_app a b : selected (a ++ b) = (selected a ++ selected b)%list.
Proof. apply flat_map_app. Qed.
Lemma flat_map_ext_in_ {A B} (f g : A -> list B) l : (forall x, In x l -> f x = g x) -> flat_map f l = flat_map g l.
Proof. intros H. induction l as [|x l IH]; [reflexivity|]. cbn [flat_map]. rewrite H by now left. rewrite IH; [reflexivity|]. intros y Hy. apply H. now right. Qed.
(** Extending a history does not change what its earlier events loaded, as long as every FileRead had its file selected before. *)
Lemma finished_snoc h e : (forall t, In (FileRead t) h -> (t < length (selected h))%nat) ->
  finished (h ++ [e]) = (finished h ++ match e with DefaultLoaded u => [u] | FileRead t => match nth_error (selected h) t with Some f => [file_to_base64 f] | None => [] end | _ => [] end)%list.
Proof.
  intros H. unfold finished at 1. rewrite flat_map_app. f_equal.
  - apply flat_map_ext_in_. intros x Hx. destruct x; try reflexivity. rewrite selected_app, nth_error_app1 by now apply H. reflexivity.
  - cbn [flat_map]. rewrite app_nil_r. destruct e; try reflexivity. rewrite selected_app. cbn [selected flat_map]. now rewrite app_nil_r.
Qed.

Lemma invariant_run k h s : run (first_page k) h = Some s -> invariant h s.
Proof.
  revert s. induction h as [|e h IH] using rev_ind; intros s H.
  - cbn in H. assert (s = first_page k) by congruence. subst s. constructor; cbn; try lia; try congruence; try contradiction; constructor.
  - rewrite run_app in H. destruct (run (first_page k) h) as [s0|] eqn:E0; [|discriminate]. destruct (IH s0 eq_refl) as [I1 I2 I3 I4 I5 I6 I7 I8].
    cbn [Front.run] in H. destruct (step s0 e) as [s1|] eqn:E1; [|discriminate]. assert (s1 = s) by congruence. subst s1. clear H.
    assert (Hf := finished_snoc h e I7).
    assert (Hreads : forall t, In (FileRead t) (h ++ [e]) -> (e = FileRead t -> (t < length (selected h))%nat) -> (t < length (selected (h ++ [e])))%nat).
    { intros t Ht He. rewrite selected_app, app_length. apply in_app_or in Ht as [Ht|[Ht|[]]]; [specialize (I7 t Ht); lia|specialize (He Ht); lia]. }
    destruct e as [| |url|[g|]|t|t]; cbn [Front.step] in E1.
    + destruct (inits s0) as [|m]; [discriminate|]. injection E1 as <-. rewrite app_nil_r in Hf.
      constructor; cbn [tickets readers defaults wasm_ready watermarking_process calls]; rewrite ?selected_app; cbn [selected flat_map]; rewrite ?app_nil_r; try assumption; try reflexivity; try (intros; reflexivity); [|now rewrite Hf].
      intros t Ht. rewrite <- (app_nil_r (selected h)). change (@nil file) with (selected [InitResolved]). rewrite <- selected_app. apply Hreads; [exact Ht|discriminate].
    + destruct (inits s0) as [|m]; [discriminate|]. injection E1 as <-. rewrite app_nil_r in Hf.
      constructor; cbn [tickets readers defaults wasm_ready watermarking_process calls]; rewrite ?selected_app; cbn [selected flat_map]; rewrite ?app_nil_r; try assumption; [|now rewrite Hf].
      intros t Ht. rewrite <- (app_nil_r (selected h)). change (@nil file) with (selected [InitRejected]). rewrite <- selected_app. apply Hreads; [exact Ht|discriminate].
    + destruct (defaults s0) as [|m] eqn:Ed; [discriminate|]. rewrite attempt_eq in E1. injection E1 as <-. assert (Hw : wasm_ready s0 = true) by (apply I3; lia).
      constructor; cbn [tickets readers defaults wasm_ready watermarking_process calls]; rewrite ?selected_app; cbn [selected flat_map]; rewrite ?app_nil_r; try assumption; try (intros; exact Hw).
      * destruct (base64_to_uint8_array url); [constructor; [exact Hw|exact I6]|exact I6].
      * intros t Ht. rewrite <- (app_nil_r (selected h)). change (@nil file) with (selected [DefaultLoaded url]). rewrite <- selected_app. apply Hreads; [exact Ht|discriminate].
      * rewrite Hf, newest_app, <- I8. reflexivity.
    + destruct (watermarking_process s0) as [p|] eqn:Ep; [|discriminate]. injection E1 as <-. rewrite app_nil_r in Hf. assert (Hw : wasm_ready s0 = true) by (apply I4; discriminate).
      constructor; cbn [tickets readers defaults wasm_ready watermarking_process calls]; rewrite ?selected_app; cbn [selected flat_map app]; try assumption; try (intros; exact Hw).
      * rewrite app_length. cbn [length]. lia.
      * intros t f Ht. apply in_app_or in Ht as [Ht|[Ht|[]]].
        -- rewrite nth_error_app1; [now apply I2|]. apply nth_error_Some. rewrite (I2 t f Ht). discriminate.
        -- assert (t = tickets s0) by congruence. assert (f = g) by congruence. subst. rewrite I1, nth_error_app2 by lia. now rewrite Nat.sub_diag.
      * intros t Ht. change [g] with (selected [Select (Some g)]). rewrite <- selected_app. apply Hreads; [exact Ht|discriminate].
      * now rewrite Hf.
    + destruct (watermarking_process s0) as [p|] eqn:Ep; [|discriminate]. injection E1 as <-. rewrite app_nil_r in Hf.
      constructor; rewrite ?selected_app; cbn [selected flat_map]; rewrite ?app_nil_r; try assumption; [| |rewrite Hf; congruence]; try (intros _; apply I4; discriminate).
      intros t Ht. rewrite <- (app_nil_r (selected h)). change (@nil file) with (selected [Select None]). rewrite <- selected_app. apply Hreads; [exact Ht|discriminate].
    + destruct (take t (readers s0)) as [(g, r)|] eqn:Et; [|discriminate]. rewrite attempt_eq in E1. injection E1 as <-.
      destruct (take_in _ _ _ _ Et) as (Hin & Hincl). pose proof (I2 _ _ Hin) as Hn. rewrite Hn in Hf.
      assert (Hw : wasm_ready s0 = true) by (apply I5; intros E; rewrite E in Hin; contradiction).
      constructor; cbn [tickets readers defaults wasm_ready watermarking_process calls]; rewrite ?selected_app; cbn [selected flat_map]; rewrite ?app_nil_r; try assumption; try (intros; exact Hw).
      * intros t' f' Hi. apply I2, Hincl, Hi.
      * destruct (base64_to_uint8_array (file_to_base64 g)); [constructor; [exact Hw|exact I6]|exact I6].
      * intros t' Ht. rewrite <- (app_nil_r (selected h)). change (@nil file) with (selected [FileRead t]). rewrite <- selected_app. apply Hreads; [exact Ht|].
        intros E. injection E as ->. apply nth_error_Some. rewrite Hn. discriminate.
      * rewrite Hf, newest_app, <- I8. reflexivity.
    + destruct (take t (readers s0)) as [(g, r)|] eqn:Et; [|discriminate]. injection E1 as <-. rewrite app_nil_r in Hf.
      destruct (take_in _ _ _ _ Et) as (Hin & Hincl).
      constructor; cbn [tickets readers defaults wasm_ready watermarking_process calls]; rewrite ?selected_app; cbn [selected flat_map]; rewrite ?app_nil_r; try assumption; [| | |now rewrite Hf].
      * intros t' f' Hi. apply I2, Hincl, Hi.
      * intros _. apply I5. intros E. rewrite E in Hin. contradiction.
      * intros t' Ht. rewrite <- (app_nil_r (selected h)). change (@nil file) with (selected [FileFailed t]). rewrite <- selected_app. apply Hreads; [exact Ht|discriminate].
Qed.
End Proofs.

(** *** C71 *)
(** [history library effects h s]: the page, whose effect ran [effects] times, has seen the events [h] and is in state [s]. *)
Definition history {P} (library : list Z -> option P) (effects : nat) (h : list event) (s : page) : Prop := run library (first_page effects) h = Some s.

(** The library is never called before its module is initialised, in any order of events. *)
Theorem C71_the_library_is_called_only_when_ready : forall P (library : list Z -> option P) effects h s, history library effects h s ->
  Forall (fun call : bool * list Z => fst call = true) (calls s).
Proof. intros P lib k h s H. exact (inv_calls _ _ _ (invariant_run lib k h s H)). Qed.

(** The page shows the result of the last load to finish among those that succeed, and nothing if none did. *)
Theorem C71_the_last_successful_load_to_finish_is_shown : forall P (library : list Z -> option P) effects h s, history library effects h s ->
  (forall p, watermarking_process s = Some p <-> last_success library (finished h) p)
  /\ (watermarking_process s = None <-> Forall (fails library) (finished h)).
Proof.
  intros P lib k h s H. pose proof (inv_newest _ _ _ (invariant_run lib k h s H)) as E.
  assert (A : forall p, watermarking_process s = Some p <-> last_success lib (finished h) p).
  { intros p. rewrite E, newest_spec. split; [intros [X|(_ & X)]; [exact X|discriminate]|now left]. }
  split; [exact A|]. split.
  - intros En. apply Forall_forall. intros x Hx p Hp.
    assert (G : forall l acc, In x l -> newest lib l acc <> None).
    { clear - Hp. induction l as [|y l IH]; intros acc; [contradiction|]. cbn [newest]. intros [ -> |Hl]; [|now apply IH].
      apply eval_loads in Hp. rewrite Hp. clear. assert (G : forall l (a : option P), a <> None -> newest lib l a <> None).
      { induction l0 as [|z l0 IH]; intros a Ha; [exact Ha|]. cbn [newest]. apply IH. destruct (eval lib z); [discriminate|exact Ha]. }
      apply G. discriminate. }
    apply (G (finished h) None Hx). congruence.
  - intros HF. destruct (watermarking_process s) as [p|] eqn:Ep; [|reflexivity]. exfalso. destruct (proj1 (A p) eq_refl) as (e & t & l & El & Hp & _).
    rewrite El in HF. apply Forall_app in HF as (_ & HF). inversion HF as [|? ? Hx _]; subst. exact (Hx p Hp).
Qed.

(** Until a load of the built-in picture has succeeded there is nothing to select a file with: no file is ever selected and the page
    says "Loading..." *)
Theorem C71_without_the_built_in_picture_the_page_stays_empty : forall P (library : list Z -> option P) effects h s, history library effects h s ->
  (forall url, In (DefaultLoaded url) h -> fails library url) -> watermarking_process s = None /\ selected h = [] /\ forall f, step library s (Select f) = None.
Proof.
  intros P lib k h. induction h as [|e h IH] using rev_ind; intros s H Hd.
  - cbv [history] in H. cbn in H. assert (s = first_page k) by congruence. subst s. repeat split; reflexivity.
  - unfold history in H. rewrite run_app in H. destruct (run lib (first_page k) h) as [s0|] eqn:E0; [|discriminate].
    destruct (IH s0 E0) as (I1 & I2 & I3); [intros u Hu; apply Hd, in_or_app; now left|]. cbn [Front.run] in H.
    destruct (step lib s0 e) as [s1|] eqn:E1; [|discriminate]. assert (s1 = s) by congruence. subst s1.
    assert (Hr : readers s0 = []).
    { pose proof (inv_readers _ _ _ (invariant_run lib k h s0 E0)) as Hr. rewrite I2 in Hr. destruct (readers s0) as [|(t, f) r]; [reflexivity|].
      specialize (Hr t f (or_introl eq_refl)). destruct t; discriminate. }
    assert (Hn : watermarking_process s = None -> selected (h ++ [e]) = [] -> watermarking_process s = None /\ selected (h ++ [e]) = [] /\ forall f, step lib s (Select f) = None).
    { intros A B. split; [exact A|]. split; [exact B|]. intros f. cbn [step]. now rewrite A. }
    rewrite selected_app, I2 in Hn |- *. destruct e as [| |url|f|t|t]; cbn [step] in E1.
    + destruct (inits s0); [discriminate|]. assert (Es : watermarking_process s = None) by (injection E1 as <-; exact I1). apply Hn; [exact Es|reflexivity].
    + destruct (inits s0); [discriminate|]. assert (Es : watermarking_process s = None) by (injection E1 as <-; exact I1). apply Hn; [exact Es|reflexivity].
    + destruct (defaults s0); [discriminate|]. rewrite attempt_eq in E1. assert (Hu : eval lib url = None) by (apply eval_fails, Hd, in_or_app; right; now left).
      rewrite Hu in E1. assert (Es : watermarking_process s = None) by (injection E1 as <-; exact I1). apply Hn; [exact Es|reflexivity].
    + rewrite I1 in E1. discriminate.
    + rewrite Hr in E1. discriminate.
    + rewrite Hr in E1. discriminate.
Qed.

(** Loads of selected files race: whichever of two valid files is selected last, the reads can finish in the order that leaves the
    file selected first on the page. *)
Theorem C71_an_older_selection_can_win : forall P (library : list Z -> option P) effects h s first second p,
  history library effects h s -> watermarking_process s <> None -> readers s = [] -> loads_as library (file_to_base64 first) p ->
  exists s', history library effects (h ++ [Select (Some first); Select (Some second); FileRead (S (tickets s)); FileRead (tickets s)]) s'
    /\ readers s' = [] /\ watermarking_process s' = Some p.
Proof.
  intros P lib k h s f1 f2 p H Hs Hr Hl. apply eval_loads in Hl. unfold history in *. rewrite run_app, H. cbn [run step].
  destruct (watermarking_process s) as [q|] eqn:Eq; [|congruence]. cbn [watermarking_process readers tickets]. rewrite Hr. cbn [app take].
  rewrite Nat.eqb_refl. replace (tickets s =? S (tickets s))%nat with false by (symmetry; apply Nat.eqb_neq; lia). rewrite attempt_eq. cbn [readers take watermarking_process].
  rewrite Nat.eqb_refl, attempt_eq. rewrite Hl. cbn [readers watermarking_process]. eexists. split; [reflexivity|]. split; reflexivity.
Qed.
(** But if the load of the file selected last finishes last, and succeeds, that file is shown. *)
Theorem C71_the_last_selection_wins_if_it_finishes_last : forall P (library : list Z -> option P) effects h s last p,
  history library effects (h ++ [FileRead (Nat.pred (length (selected h)))]) s -> (exists earlier, selected h = (earlier ++ [last])%list) ->
  loads_as library (file_to_base64 last) p -> watermarking_process s = Some p.
Proof.
  intros P lib k h s f p H (e & Ee) Hl. destruct (C71_the_last_successful_load_to_finish_is_shown P lib k _ s H) as (A & _). apply A.
  unfold history in H. assert (H0 := H). rewrite run_app in H0. destruct (run lib (first_page k) h) as [s0|] eqn:E0; [|discriminate].
  rewrite (finished_snoc h _ (inv_reads _ _ _ (invariant_run lib k h s0 E0))).
  rewrite Ee, app_length, Nat.add_1_r. cbn [length Nat.pred]. rewrite nth_error_app2, Nat.sub_diag by lia. cbn [nth_error].
  exists (finished h), (file_to_base64 f), []. split; [reflexivity|]. split; [exact Hl|constructor].
Qed.

(** A picture file of type image/<letters and digits> loads as the library says about its bytes; a file of any other type fails. *)
Theorem C71_what_selected_files_load_as : forall P (library : list Z -> option P) mime content, ~ In 59 mime -> bytes content ->
  forall p, loads_as library (file_to_base64 (data_url mime content)) p <-> plain_image_type mime /\ library content = Some p.
Proof.
  intros P lib mime b H59 Hb p. unfold loads_as. split.
  - intros (c & E & H). apply C70_other_file_types_are_refused in E as (Hm & ->); try assumption. split; assumption.
  - intros (Hm & H). exists b. split; [|exact H]. now apply C70_the_library_gets_the_bytes_of_the_file.
Qed.

(** *** C72: what is drawn *)
(** For every picture the library accepts, with at least one pixel, both canvases get exactly the bytes of the decoded and of the
    watermarked picture, four per pixel, and drawing does not throw. *)
Theorem C72_the_canvases_get_every_pixel : forall K E equalize features_of checks pad (format : Type) (guess : list Z -> option format) decode_image blob (depth step : b64) process,
  (forall fmt data image, decode_image fmt data = Some image -> well_formed image) ->
  get_watermarking_process Bops K E equalize features_of checks pad guess decode_image blob depth step = Ok process ->
  (1 <= model_width (source_model process))%nat -> (1 <= model_height (source_model process))%nat ->
  forall model, model = source_model process \/ model = watermarked_model process ->
  canvas_bytes (model_width model) (model_height model) (model_data model) = Some (model_data model).
Proof.
  intros K E eq fo checks pad fmt guess dec blob depth step pr Hdec H W1 H1 m Hm.
  destruct (C55_models_hold_four_bytes_per_pixel K E eq fo checks pad fmt guess dec blob depth step pr Hdec H) as (f & src & wm & _ & _ & _ & _ & Hall).
  assert (Hs := Hall _ _ (or_introl eq_refl)). assert (Hw := Hall _ _ (or_intror eq_refl)).
  assert (Hd : model_width m = model_width (source_model pr) /\ model_height m = model_height (source_model pr) /\ length (model_data m) = (4 * (model_width m * model_height m))%nat).
  { destruct Hs as (A & B & C & _). destruct Hw as (A' & B' & C' & _). destruct Hm as [ -> | -> ]; rewrite ?A, ?B, ?A', ?B'; repeat split; assumption. }
  destruct Hd as (A & B & C). unfold canvas_bytes. rewrite C, A, B.
  replace (model_width (source_model pr) =? 0)%nat with false by (symmetry; apply Nat.eqb_neq; lia).
  replace (model_height (source_model pr) =? 0)%nat with false by (symmetry; apply Nat.eqb_neq; lia).
  cbn [orb]. rewrite Nat.ltb_irrefl, Nat.sub_diag. cbn [repeat]. now rewrite app_nil_r.
Qed.

(** Bytes that do not fill the canvas leave the rest transparent black (the canvas has just been given a new image); bytes that do not fit
    are not drawn at all. *)
Theorem C72_what_any_bytes_draw : forall width height data, (1 <= width)%nat -> (1 <= height)%nat ->
  ((length data <= 4 * (width * height))%nat -> exists drawn, canvas_bytes width height data = Some drawn /\ length drawn = (4 * (width * height))%nat
     /\ forall i, (i < 4 * (width * height))%nat -> nth i drawn 0 = (if (i <? length data)%nat then nth i data 0 else 0))
  /\ ((4 * (width * height) < length data)%nat -> canvas_bytes width height data = None).
Proof.
  intros w h d Hw Hh. unfold canvas_bytes.
  replace (w =? 0)%nat with false by (symmetry; apply Nat.eqb_neq; lia). replace (h =? 0)%nat with false by (symmetry; apply Nat.eqb_neq; lia). cbn [orb].
  split; intros Hl.
  - rewrite (proj2 (Nat.ltb_ge _ _) Hl). eexists. split; [reflexivity|]. split; [rewrite app_length, repeat_length; lia|].
    intros i Hi. destruct (Nat.ltb_spec i (length d)) as [H|H].
    + now apply app_nth1.
    + rewrite app_nth2 by lia. destruct (nth_in_or_default (i - length d) (repeat 0 (4 * (w * h) - length d)) 0) as [X|X]; [now apply repeat_spec in X|exact X].
  - now rewrite (proj2 (Nat.ltb_lt _ _) Hl).
Qed.

(** ** Concrete case: a page whose built-in picture loads, and two selected files whose reads finish in the opposite order: the first is
    shown. *)
Definition toy_library (b : list Z) : option Z := match b with [x] => Some x | _ => None end.
Definition png (x : Z) : list Z := data_url (str "image/png") [x].
Example C71_instance :
  match run toy_library (first_page 2) [InitResolved; DefaultLoaded (png 7)] with
  | Some s => watermarking_process s = Some 7 /\ readers s = [] /\ loads_as toy_library (file_to_base64 (png 8)) 8
  | None => False end
  /\ match run toy_library (first_page 2) [InitResolved; DefaultLoaded (png 7); Select (Some (png 8)); Select (Some (png 9)); FileRead 1; FileRead 0] with
  | Some s => watermarking_process s = Some 8 /\ calls s = [(true, [8]); (true, [9]); (true, [7])]
  | None => False end.
Proof.
  split.
  - vm_compute. split; [reflexivity|]. split; [reflexivity|]. exists [8]. split; reflexivity.
  - vm_compute. split; reflexivity.
Qed.
Example C72_instance : canvas_bytes 1 1 [1; 2; 3; 255] = Some [1; 2; 3; 255] /\ canvas_bytes 1 1 [1; 2; 3; 255; 0] = None.
Proof. split; reflexivity. Qed.

Print Assumptions C71_the_library_is_called_only_when_ready.
Print Assumptions C71_the_last_successful_load_to_finish_is_shown.
Print Assumptions C71_without_the_built_in_picture_the_page_stays_empty.
Print Assumptions C71_an_older_selection_can_win.
Print Assumptions C71_the_last_selection_wins_if_it_finishes_last.
Print Assumptions C71_what_selected_files_load_as.
Print Assumptions C72_the_canvases_get_every_pixel.
Print Assumptions C72_what_any_bytes_draw.
