(** Property C55: what the web page gets (lib/sia/rust/web/src/lib.rs). *)
From Coq Require Import Reals Lra.
From Flocq Require Import Core BinarySingleNaN.
From Verif Require Import Outcome Floats FloatFacts Bits ListFacts Encoding EncodingProofs Matrix MatrixFacts Signature Process ProcessProofs
  PropsProcess PropsProcess2 Toy Image PropsImage Web.
Open Scope Z_scope.

(** ** Specification vocabulary *)
(** Component [c] (0 red, 1 green, 2 blue, 3 alpha) of the pixel in column [x] and row [y] of an image model, as the page's canvas
    addresses it. *)
Definition model_component (m : image_model) (x y c : nat) : option Z := nth_error (model_data m) (4 * (y * model_width m + x) + c).
(** The same component of a decoded picture. *)
Definition picture_component (image : dynimage) (x y c : nat) : option Z :=
  match nth_error (get_pixels image) (y * fst (dimensions image) + x) with
  | Some p => nth_error [ch1 p; ch2 p; ch3 p; ch4 p] c
  | None => None
  end.

(** ** helpers *)
Lemma raw_nth px k c : (c < 4)%nat -> nth_error (flat_map (fun p : rgba => [ch1 p; ch2 p; ch3 p; ch4 p]) px) (4 * k + c)
  = match nth_error px k with Some p => nth_error [ch1 p; ch2 p; ch3 p; ch4 p] c | None => None end.
Proof.
  intros Hc. revert k. induction px as [|p t IH]; intros k; cbn [flat_map].
  - rewrite !(proj2 (nth_error_None _ _)) by (cbn [length]; lia). reflexivity.
  - destruct k as [|k].
    + rewrite Nat.mul_0_r, Nat.add_0_l. cbn [nth_error]. rewrite nth_error_app1 by (cbn [length]; lia). reflexivity.
    + rewrite nth_error_app2 by (cbn [length]; lia). cbn [nth_error length]. replace (4 * S k + c - 4)%nat with (4 * k + c)%nat by lia. apply IH.
Qed.

Lemma raw_bytes image : well_formed image -> bytes (into_rgba8_raw image) /\ length (into_rgba8_raw image) = (4 * (fst (dimensions image) * snd (dimensions image)))%nat.
Proof.
  intros H. unfold well_formed in H. destruct (dimensions image) as (w, h). destruct H as (Hl & H8 & _). cbn [fst snd]. unfold into_rgba8_raw. split.
  - unfold bytes. apply Forall_flat_map. eapply Forall_impl; [|exact H8]. intros p (A & B & C & D). repeat constructor; apply A || apply B || apply C || apply D.
  - rewrite <- Hl. generalize (get_pixels image) as l. intros l. induction l as [|p t IH]; [reflexivity|]. cbn [flat_map]. rewrite app_length, IH. cbn [length]. lia.
Qed.

Lemma model_eq image : well_formed image -> get_image_model image = mkImageModel (fst (dimensions image)) (snd (dimensions image)) (into_rgba8_raw image).
Proof.
  intros H. destruct (raw_bytes image H) as (B & _). unfold get_image_model. destruct (dimensions image) as (w, h). cbn [fst snd]. f_equal.
  clear H. induction B as [|x t Hx Ht IH]; [reflexivity|]. cbn [map]. unfold byte in Hx. rewrite Z.mod_small by lia. now rewrite IH.
Qed.

Lemma model_of_picture image : well_formed image ->
  model_width (get_image_model image) = fst (dimensions image) /\ model_height (get_image_model image) = snd (dimensions image)
  /\ length (model_data (get_image_model image)) = (4 * (fst (dimensions image) * snd (dimensions image)))%nat
  /\ forall x y c, (c < 4)%nat -> model_component (get_image_model image) x y c = picture_component image x y c.
Proof.
  intros H. rewrite model_eq by exact H. cbn [model_width model_height model_data]. split; [reflexivity|]. split; [reflexivity|]. split; [now apply raw_bytes|].
  intros x y c Hc. unfold model_component, picture_component. cbn [model_data model_width]. unfold into_rgba8_raw. now apply raw_nth.
Qed.

(** ** C55 *)
Theorem C55_models_hold_four_bytes_per_pixel : forall K E equalize features_of checks pad (format : Type) (guess : list Z -> option format) decode_image blob (depth step : b64) process,
  (forall fmt data image, decode_image fmt data = Some image -> well_formed image) ->
  get_watermarking_process Bops K E equalize features_of checks pad guess decode_image blob depth step = Ok process ->
  exists fmt source watermarked,
    guess blob = Some fmt /\ decode_image fmt blob = Some source /\ source_format process = fmt
    /\ watermark_image Bops K E equalize features_of checks pad source depth step 11 = Ok watermarked
    /\ (forall model picture, (model, picture) = (source_model process, source) \/ (model, picture) = (watermarked_model process, watermarked) ->
         model_width model = fst (dimensions source) /\ model_height model = snd (dimensions source)
         /\ length (model_data model) = (4 * (fst (dimensions source) * snd (dimensions source)))%nat
         /\ forall x y c, (c < 4)%nat -> model_component model x y c = picture_component picture x y c).
Proof.
  intros K E eq fo checks pad format guess dec blob depth step process Hdec H.
  unfold get_watermarking_process in H. apply bind_ok in H as ((source & fmt) & Hs & H). apply bind_ok in H as (marked & Hm & H).
  unfold get_source in Hs. apply bind_ok in Hs as (fmt' & Hg & Hs). apply bind_ok in Hs as (image & Hd & Hs).
  assert (E1 : image = source) by congruence. assert (E2 : fmt' = fmt) by congruence. subst image fmt'.
  destruct (guess blob) as [f|] eqn:Eg; cbn [unwrap] in Hg; [|discriminate]. assert (f = fmt) by congruence. subst f.
  destruct (dec fmt blob) as [i|] eqn:Ed; [|discriminate]. assert (i = source) by congruence. subst i.
  assert (Ep : process = mkProcess fmt (get_image_model source) (get_image_model marked)) by congruence. rewrite Ep. cbn [source_format source_model watermarked_model].
  pose proof (Hdec _ _ _ Ed) as Hw. unfold get_watermarked in Hm.
  destruct (C42_watermark_preserves_size_layout_and_alpha K E eq fo checks pad source depth step 11 marked Hw Hm) as (Dm & _ & _ & _ & Wm & _).
  exists fmt, source, marked. split; [reflexivity|]. split; [exact Ed|]. split; [reflexivity|]. split; [exact Hm|].
  intros model picture [ Hp | Hp ].
  - assert (model = get_image_model source) by congruence. assert (picture = source) by congruence. subst model picture. now apply model_of_picture.
  - assert (model = get_image_model marked) by congruence. assert (picture = marked) by congruence. subst model picture.
    destruct (model_of_picture marked Wm) as (A & B & C & D). rewrite Dm in A, B, C. repeat split; assumption.
Qed.

(** What the page shows next to each other: at its depth 500.0 no colour byte differs by more than 47, no alpha byte differs. *)
Theorem C55_shown_pictures_differ_little : forall K E equalize features_of checks pad (format : Type) (guess : list Z -> option format) decode_image blob (step : b64) process n,
  (forall fmt data image, decode_image fmt data = Some image -> well_formed image) ->
  get_watermarking_process Bops K E equalize features_of checks pad guess decode_image blob (f_of_Z Bops 500) step = Ok process ->
  model_width (source_model process) = n -> model_height (source_model process) = n -> (n mod 8 = 0)%nat -> Z.of_nat (n * n) < 2 ^ 53 ->
  forall x y c v w, (c < 4)%nat -> model_component (source_model process) x y c = Some v -> model_component (watermarked_model process) x y c = Some w ->
    Z.abs (w - v) <= 47 /\ (c = 3%nat -> w = v).
Proof.
  intros K E eq fo checks pad format guess dec blob step process n Hdec H Hw Hh Hm Hr x y c v w Hc Ev Ew.
  destruct (C55_models_hold_four_bytes_per_pixel K E eq fo checks pad format guess dec blob _ step process Hdec H) as (fmt & source & marked & _ & Ed & _ & Em & Hmod).
  destruct (Hmod (source_model process) source (or_introl eq_refl)) as (S1 & S2 & _ & S4).
  destruct (Hmod (watermarked_model process) marked (or_intror eq_refl)) as (W1 & W2 & _ & W4).
  rewrite S4 in Ev by exact Hc. rewrite W4 in Ew by exact Hc.
  assert (Dn : dimensions source = (n, n)) by (destruct (dimensions source); cbn [fst snd] in *; congruence).
  destruct (C59_visible_change_is_bounded K E eq fo checks pad source n step 11 marked (Hdec _ _ _ Ed) Dn Hm Hr) as (_ & Ch). specialize (Ch Em).
  destruct (C42_watermark_preserves_size_layout_and_alpha K E eq fo checks pad source _ step 11 marked (Hdec _ _ _ Ed) Em) as (Dm & _).
  unfold picture_component in Ev, Ew. rewrite Dm in Ew.
  destruct (nth_error (get_pixels source) _) as [p|] eqn:Ep; [|discriminate]. destruct (nth_error (get_pixels marked) _) as [q|] eqn:Eq; [|discriminate].
  destruct (Ch _ p q Ep Eq) as (C1 & C2 & C3 & C4).
  destruct c as [|[|[|[|c]]]]; cbn [nth_error] in Ev, Ew; try lia;
    (assert (Hv : v = _) by (symmetry; injection Ev as Hv; exact Hv)); (assert (Hw' : w = _) by (symmetry; injection Ew as Hw'; exact Hw')); rewrite Hv, Hw'; split; try assumption; try discriminate; intros; try lia.
Qed.

(** Undecodable input panics; nothing is returned. *)
Theorem C55_undecodable_input_panics : forall (F : Type) (O : FOps F) K E equalize features_of checks pad (format : Type) (guess : list Z -> option format) decode_image blob depth step,
  (guess blob = None \/ exists fmt, guess blob = Some fmt /\ decode_image fmt blob = None) ->
  is_panic (get_watermarking_process O K E equalize features_of checks pad guess decode_image blob depth step) = true.
Proof.
  intros F O K E eq fo checks pad format guess dec blob depth step [ H | (fmt & H1 & H2) ]; unfold get_watermarking_process, get_source.
  - now rewrite H.
  - rewrite H1. cbn [unwrap bind]. now rewrite H2.
Qed.

Lemma nth_error_repeat_some : forall (A : Type) (x : A) n k, (k < n)%nat -> nth_error (repeat x n) k = Some x.
Proof. induction n as [|n IH]; intros [|k] H; try lia; [reflexivity|]. cbn [repeat nth_error]. apply IH. lia. Qed.

(** ** Witness: a blob that decodes to the 512 x 512 RGBA picture of PropsImage.v *)
Example C55_instance : exists process,
  get_watermarking_process Bops toy_ldpc toy_ed (fun l => l) toy_features_f64 true (repeat false 8) (fun _ => Some tt) (fun _ _ => Some colour512) [] (f_of_Z Bops 500) (f_of_Z Bops 1) = Ok process
  /\ model_width (source_model process) = 512%nat /\ model_component (source_model process) 3 2 1 = Some 128 /\ model_component (watermarked_model process) 511 511 3 = Some 77.
Proof.
  destruct (b_of_Z_ok 500) as (F1 & V1); [lia|]. destruct (b_of_Z_ok 1) as (F2 & V2); [lia|].
  change (b_of_Z 500) with (f_of_Z Bops 500) in *. change (b_of_Z 1) with (f_of_Z Bops 1) in *.
  assert (Hn : Z.of_nat (512 * 512) < 2 ^ 53) by (rewrite Nat2Z.inj_mul; lia).
  destruct (C60_every_colour_channel_of_a_watermarked_image_authenticates toy_ldpc toy_shape toy_decodes toy_ed toy_format toy_keys (fun l => l) toy_features_f64 true (repeat false 8) eq_refl
              colour512 512 (f_of_Z Bops 500) (f_of_Z Bops 1) 11 colour512_wf eq_refl usable_512 eq_refl Hn F2) as (result & Eres & _).
  - rewrite V2. split; [apply Rle_trans with (bpow radix2 0); [apply bpow_le; lia|simpl; lra]|apply Rle_trans with (bpow radix2 0); [simpl; lra|apply bpow_le; lia]].
  - exact F1.
  - rewrite V1. simpl. lra.
  - intros sel Hs. apply colour512_ready; [exact Hs|]. rewrite V1. simpl. lra.
  - eexists. unfold get_watermarking_process, get_source, get_watermarked. cbn [unwrap bind]. rewrite Eres. cbn [bind]. split; [reflexivity|]. cbn [source_model watermarked_model].
    destruct (C42_watermark_preserves_size_layout_and_alpha _ _ _ _ _ _ _ _ _ _ _ colour512_wf Eres) as (Dm & _ & _ & _ & Wm & Ha & _).
    destruct (model_of_picture _ colour512_wf) as (A & _ & _ & D). destruct (model_of_picture _ Wm) as (_ & _ & _ & Dr).
    split; [exact A|]. rewrite D, Dr by lia.
    assert (P : forall k, (k < 512 * 512)%nat -> nth_error (get_pixels colour512) k = Some (100, 128, 150, 77)).
    { intros k Hk. exact (nth_error_repeat_some _ _ _ _ Hk). }
    split.
    + unfold picture_component. change (fst (dimensions colour512)) with 512%nat. rewrite P by lia. reflexivity.
    + unfold picture_component. rewrite Dm. change (fst (dimensions colour512)) with 512%nat.
      assert (Hk : (511 * 512 + 511 < 512 * 512)%nat) by lia. set (k := (511 * 512 + 511)%nat) in *.
      pose proof (map_nth_error ch4 k _ (P k Hk)) as Q. rewrite <- Ha in Q. rewrite nth_error_map in Q.
      destruct (nth_error (get_pixels result) k) as [q|]; [|discriminate]. cbn [option_map] in Q. cbn [nth_error]. assert (ch4 q = 77) by (injection Q as Q; exact Q). now rewrite H.
Qed.

Print Assumptions C55_models_hold_four_bytes_per_pixel.
Print Assumptions C55_shown_pictures_differ_little.
Print Assumptions C55_undecodable_input_panics.
