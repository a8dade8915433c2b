(** Property C95: from the file to the screen - what the page displays, for every order in which its loads finish. *)
From Coq Require Import String Ascii Reals.
From Flocq Require Import Core BinarySingleNaN.
From Verif Require Import Outcome Floats Bits ListFacts Quantization Codecs Encoding Matrix Haar Stego IndexArith IndexArithProofs StegoProofs Embedding EmbeddingProofs Signature Process ProcessProofs
  Image PropsImage Web PropsWeb Timer PropsTimer Front PropsFront PropsPage Preview.
Open Scope Z_scope.
Open Scope list_scope.

(** ** Specification: a canvas that shows a picture *)
(** The canvas is as wide and as high as the picture and every pixel on it has the red, green, blue and alpha of that pixel of the picture. *)
Definition shows (canvas : option canvas) (picture : dynimage) : Prop :=
  exists c, canvas = Some c /\ canvas_width c = fst (dimensions picture) /\ canvas_height c = snd (dimensions picture)
  /\ length (canvas_data c) = (4 * (canvas_width c * canvas_height c))%nat
  /\ forall x y k, (x < canvas_width c)%nat -> (y < canvas_height c)%nat -> (k < 4)%nat ->
     canvas_byte c x y k = picture_component picture x y k /\ exists v, canvas_byte c x y k = Some v.
(** The lines of text. *)
Definition says_format (line : list Z) (f : image_format) : Prop :=
  line = str (match f with
    | Png => "Format: PNG" | Jpeg => "Format: JPEG" | Gif => "Format: GIF" | WebP => "Format: WEBP" | Pnm => "Format: PNM" | Tiff => "Format: TIFF" | Tga => "Format: TGA" | Dds => "Format: DDS"
    | Bmp => "Format: BMP" | Ico => "Format: ICO" | Hdr => "Format: HDR" | OpenExr => "Format: OPENEXR" | Farbfeld => "Format: FARBFELD" | Avif => "Format: AVIF" | Qoi => "Format: QOI" end)%string.
Definition says_size (line : list Z) (width height : nat) : Prop :=
  line = str "Size: " ++ str (show (Z.of_nat width)) ++ str "x" ++ str (show (Z.of_nat height)).

(** ** helpers *)
Lemma picture_not_empty K E equalize features_of checks pad image (depth step : b64) amount result :
  watermark_image Bops K E equalize features_of checks pad image depth step amount = Ok result -> (1 <= fst (dimensions image))%nat /\ (1 <= snd (dimensions image))%nat.
Proof.
  intros H. unfold watermark_image, watermark in H. destruct (dimensions image) as (w, h). cbn [fst snd]. apply bind_ok in H as (red & Hr & _). unfold watermark_channel in Hr.
  apply bind_ok in Hr as ((px, fs) & Hf & Hr). destruct (channel_features_inv equalize features_of _ amount px fs Hf) as (Epx & _).
  apply bind_ok in Hr as ((q, bits) & _ & Hr). apply bind_ok in Hr as (sig & _ & Hr). apply bind_ok in Hr as (pl & _ & Hr). apply bind_ok in Hr as (out & Ho & _).
  unfold embed in Ho. apply bind_ok in Ho as (cf & _ & Ho). apply bind_ok in Ho as (lw & Hlw & Ho). apply bind_ok in Ho as (lh & Hlh & Ho). apply bind_ok in Ho as (cap & Hcap & _).
  cbn [gwidth gheight gray_raw] in Epx.
  assert (Dpx : dim0 px = w /\ dim1 px = h).
  { unfold from_shape_vec in Epx. destruct (Nat.eqb _ _); [|discriminate Epx]. match type of Epx with Ok ?v = Ok _ => assert (X : px = v) by congruence end. rewrite X. split; reflexivity. }
  destruct Dpx as (D0 & D1). unfold ll_side in Hlw, Hlh. destruct (Nat.leb 31 DWT_LEVELS); [discriminate Hlw|].
  assert (Elw : lw = (w / 2 ^ DWT_LEVELS)%nat) by congruence. assert (Elh : lh = (h / 2 ^ DWT_LEVELS)%nat) by congruence.
  destruct (Nat.eq_dec (lw * lh) 0) as [Z0|Z0].
  - exfalso. rewrite get_domain_capacity_small in Hcap; [discriminate Hcap| |].
    + unfold representable. rewrite Z0. reflexivity.
    + rewrite Z0. cbn. lia.
  - split; [destruct w; [|lia]|destruct h; [|lia]]; exfalso; apply Z0; rewrite Elw, Elh; rewrite Nat.div_0_l by discriminate; lia.
Qed.

Lemma canvas_shows m picture : (1 <= fst (dimensions picture))%nat -> (1 <= snd (dimensions picture))%nat ->
  model_width m = fst (dimensions picture) -> model_height m = snd (dimensions picture) -> length (model_data m) = (4 * (fst (dimensions picture) * snd (dimensions picture)))%nat ->
  (forall x y c, (c < 4)%nat -> model_component m x y c = picture_component picture x y c) -> shows (canvas_of m) picture.
Proof.
  intros W1 H1 Hw Hh Hl Hc. exists (mkCanvas (model_width m) (model_height m) (model_data m)). cbn [canvas_width canvas_height canvas_data]. split.
  - unfold canvas_of, draw, canvas_bytes. rewrite Hw, Hh, Hl. replace (fst (dimensions picture) =? 0)%nat with false by (symmetry; apply Nat.eqb_neq; lia).
    replace (snd (dimensions picture) =? 0)%nat with false by (symmetry; apply Nat.eqb_neq; lia). cbn [orb]. rewrite Nat.ltb_irrefl, Nat.sub_diag. cbn [repeat]. now rewrite app_nil_r.
  - rewrite Hw, Hh. split; [reflexivity|]. split; [reflexivity|]. split; [exact Hl|]. intros x y k Hx Hy Hk. unfold canvas_byte. cbn [canvas_width canvas_data]. split.
    + rewrite <- Hw. exact (Hc x y k Hk).
    + destruct (nth_error (model_data m) (4 * (y * fst (dimensions picture) + x) + k)) as [v|] eqn:E; [now exists v|]. exfalso. apply nth_error_None in E. rewrite Hl in E.
      assert ((S y * fst (dimensions picture) <= snd (dimensions picture) * fst (dimensions picture))%nat) by (apply Nat.mul_le_mono_r; lia). nia.
Qed.

Lemma format_says p : says_format (format_line (render p)) (source_format p).
Proof. unfold render, says_format. cbn [format_line]. destruct (source_format p); reflexivity. Qed.

(** *** C95: the display of a picture the library accepts *)
Theorem C95_what_is_displayed_for_a_file : forall K E equalize features_of checks pad guess decode_image content process,
  (forall fmt data image, decode_image fmt data = Some image -> well_formed image) ->
  page_library Bops K E equalize features_of checks pad guess decode_image content = Some process ->
  exists fmt picture marked, guess content = Some fmt /\ decode_image fmt content = Some picture
    /\ watermark_image Bops K E equalize features_of checks pad picture (f_of_Z Bops 500) (f_of_Z Bops 1) 11 = Ok marked
    /\ says_format (format_line (render process)) fmt /\ says_size (size_line (render process)) (fst (dimensions picture)) (snd (dimensions picture))
    /\ shows (left_canvas (render process)) picture /\ shows (right_canvas (render process)) marked.
Proof.
  intros K E eq fo checks pad guess dec content pr Hdec H. unfold page_library in H.
  destruct (get_watermarking_process Bops K E eq fo checks pad guess dec content (f_of_Z Bops 500) (f_of_Z Bops 1)) as [p| |] eqn:Hp; try discriminate H. assert (p = pr) by congruence. subst p.
  destruct (C55_models_hold_four_bytes_per_pixel K E eq fo checks pad image_format guess dec content (f_of_Z Bops 500) (f_of_Z Bops 1) pr Hdec Hp) as (fmt & src & wm & G1 & G2 & G3 & G4 & G5).
  exists fmt, src, wm. split; [exact G1|]. split; [exact G2|]. split; [exact G4|]. destruct (picture_not_empty _ _ _ _ _ _ _ _ _ _ _ G4) as (W1 & H1).
  destruct (C42_watermark_preserves_size_layout_and_alpha _ _ _ _ _ _ _ _ _ _ _ (Hdec _ _ _ G2) G4) as (Dm & _).
  destruct (G5 _ _ (or_introl eq_refl)) as (A1 & A2 & A3 & A4). destruct (G5 _ _ (or_intror eq_refl)) as (B1 & B2 & B3 & B4).
  split; [rewrite <- G3; apply format_says|]. split; [unfold says_size, render, number; cbn [size_line]; now rewrite A1, A2|]. split.
  - now apply canvas_shows.
  - apply canvas_shows; rewrite ?Dm; assumption.
Qed.

(** *** C95: whatever the page displays, after any events in any order, comes from one load: the last one that worked *)
Theorem C95_what_the_page_displays : forall K E equalize features_of checks pad guess decode_image,
  let library := page_library Bops K E equalize features_of checks pad guess decode_image in
  (forall fmt data image, decode_image fmt data = Some image -> well_formed image) ->
  forall effects h s, history library effects h s ->
  (displayed s = None <-> Forall (fails library) (finished h))
  /\ forall shown, displayed s = Some shown ->
     exists earlier text later content fmt picture marked, finished h = earlier ++ text :: later /\ Forall (fails library) later
       /\ base64_to_uint8_array text = Some content /\ guess content = Some fmt /\ decode_image fmt content = Some picture
       /\ watermark_image Bops K E equalize features_of checks pad picture (f_of_Z Bops 500) (f_of_Z Bops 1) 11 = Ok marked
       /\ says_format (format_line shown) fmt /\ says_size (size_line shown) (fst (dimensions picture)) (snd (dimensions picture))
       /\ shows (left_canvas shown) picture /\ shows (right_canvas shown) marked.
Proof.
  intros K E eq fo checks pad guess dec library Hdec effects h s Hh. destruct (C71_the_last_successful_load_to_finish_is_shown _ library effects h s Hh) as (A & B). unfold displayed. split.
  - destruct (Front.watermarking_process s); [split; [discriminate|intros HF; apply B in HF; discriminate]|]. split; [intros _; now apply B|reflexivity].
  - intros shown Hs. destruct (Front.watermarking_process s) as [p|]; [|discriminate Hs]. assert (shown = render p) by congruence. subst shown.
    destruct (proj1 (A p) eq_refl) as (e & t & l & E1 & (content & E2 & E3) & E4).
    destruct (C95_what_is_displayed_for_a_file K E eq fo checks pad guess dec content p Hdec E3) as (fmt & pic & mk & G). exists e, t, l, content, fmt, pic, mk. auto.
Qed.

(** *** C95: a selected picture file whose load finishes last is what the user sees *)
Theorem C95_the_selected_file_is_displayed : forall K E equalize features_of checks pad guess decode_image,
  let library := page_library Bops K E equalize features_of checks pad guess decode_image in
  (forall fmt data image, decode_image fmt data = Some image -> well_formed image) ->
  forall effects h s mime content fmt picture marked,
  history library effects (h ++ [FileRead (Nat.pred (length (selected h)))]) s -> (exists earlier, selected h = earlier ++ [data_url mime content]) ->
  plain_image_type mime -> bytes content -> guess content = Some fmt -> decode_image fmt content = Some picture ->
  watermark_image Bops K E equalize features_of checks pad picture (f_of_Z Bops 500) (f_of_Z Bops 1) 11 = Ok marked ->
  exists shown, displayed s = Some shown /\ says_format (format_line shown) fmt /\ says_size (size_line shown) (fst (dimensions picture)) (snd (dimensions picture))
    /\ shows (left_canvas shown) picture /\ shows (right_canvas shown) marked.
Proof.
  intros K E eq fo checks pad guess dec library Hdec effects h s mime content fmt pic mk Hh Hl Hm Hb G1 G2 G3.
  assert (Hlib : exists p, library content = Some p).
  { subst library. unfold page_library, get_watermarking_process, get_source, get_watermarked. rewrite G1. cbn [unwrap bind]. rewrite G2. cbn [bind]. rewrite G3. cbn [bind]. eexists. reflexivity. }
  destruct Hlib as (p & Hp).
  assert (Ht : loads_as library (file_to_base64 (data_url mime content)) p).
  { exists content. split; [|exact Hp]. now apply C70_the_library_gets_the_bytes_of_the_file. }
  assert (Hs : Front.watermarking_process s = Some p) by exact (C71_the_last_selection_wins_if_it_finishes_last _ library effects h s _ p Hh Hl Ht).
  exists (render p). split; [unfold displayed; now rewrite Hs|].
  destruct (C95_what_is_displayed_for_a_file K E eq fo checks pad guess dec content p Hdec Hp) as (fmt' & pic' & mk' & Q1 & Q2 & Q3 & Q4).
  assert (fmt' = fmt) by congruence. subst fmt'. assert (pic' = pic) by congruence. subst pic'. assert (mk' = mk) by congruence. subst mk'. exact Q4.
Qed.

(** *** C95: the two lines can be read back *)
Lemma str_inj a b : str a = str b -> a = b.
Proof.
  unfold str. revert b. induction a as [|c t IH]; intros [|d u] H; cbn [list_ascii_of_string map] in H; try discriminate; [reflexivity|].
  assert (H1 : Z.of_nat (nat_of_ascii c) = Z.of_nat (nat_of_ascii d) /\ map (fun c => Z.of_nat (nat_of_ascii c)) (list_ascii_of_string t) = map (fun c => Z.of_nat (nat_of_ascii c)) (list_ascii_of_string u)) by (split; congruence).
  destruct H1 as (H1 & H2). apply Nat2Z.inj in H1. rewrite <- (ascii_nat_embedding c), <- (ascii_nat_embedding d), H1. now rewrite (IH u H2).
Qed.
Lemma show_no_x n : ~ In 120 (str (show n)).
Proof.
  pose proof (show_digits n) as H. revert H. generalize (show n). intros s. induction s as [|c t IH]; [intros _ []|]. unfold str in *. cbn [list_ascii_of_string map all_digits].
  intros H. apply andb_prop in H as (H1 & H2). intros [Hc|Hc]; [|now apply IH]. unfold digit in H1. apply andb_prop in H1 as (H3 & H4). apply Z.leb_le in H3, H4.
  unfold nat_of_ascii in Hc. rewrite N_nat_Z in Hc. lia.
Qed.
Lemma split_x (a b a' b' : list Z) : ~ In 120 a -> ~ In 120 a' -> a ++ 120 :: b = a' ++ 120 :: b' -> a = a' /\ b = b'.
Proof.
  revert a'. induction a as [|x a IH]; intros [|y a'] Ha Ha' H; cbn [app] in H.
  - split; congruence.
  - elim Ha'. left. congruence.
  - elim Ha. left. congruence.
  - assert (x = y /\ a ++ 120 :: b = a' ++ 120 :: b') as (-> & E) by (split; congruence). destruct (IH a') as (-> & ->); [intros Hi; apply Ha; now right|intros Hi; apply Ha'; now right|exact E|]. split; reflexivity.
Qed.
Theorem C95_the_lines_can_be_read_back : forall line f f' w h w' h',
  (says_format line f -> says_format line f' -> f = f') /\ (says_size line w h -> says_size line w' h' -> w = w' /\ h = h').
Proof.
  intros line f f' w h w' h'. split.
  - unfold says_format. intros -> H. apply str_inj in H. destruct f, f'; first [reflexivity | discriminate H].
  - unfold says_size. intros -> H. apply app_inv_head in H. change (str "x") with [120] in H. cbn [app] in H. apply split_x in H as (H1 & H2); try apply show_no_x.
    assert (I : forall a b : nat, str (show (Z.of_nat a)) = str (show (Z.of_nat b)) -> a = b).
    { intros a b Hab. apply str_inj in Hab. pose proof (digits_value_show (Z.of_nat a) ltac:(lia)) as Va. pose proof (digits_value_show (Z.of_nat b) ltac:(lia)) as Vb. rewrite Hab, Vb in Va. assert (Z.of_nat b = Z.of_nat a) by congruence. lia. }
    split; now apply I.
Qed.

(** ** Witness: the page, its built-in picture loaded, and a selected file of two bytes that decodes to the 512x512 picture of PropsImage.v *)
Lemma a_history {P} (library : list Z -> option P) p : library [1] = Some p ->
  exists s, history library 1 ([InitResolved; DefaultLoaded (data_url (str "image/jpeg") [1]); Select (Some (data_url (str "image/webp") [7; 9]))] ++ [FileRead 0]) s.
Proof.
  intros E1. unfold history. cbn [app].
  assert (B1 : base64_to_uint8_array (data_url (str "image/jpeg") [1]) = Some [1]) by (vm_compute; reflexivity).

  revert B1. generalize (data_url (str "image/jpeg") [1]) (data_url (str "image/webp") [7; 9]). intros u v B1.
  cbn -[base64_to_uint8_array file_to_base64]. unfold attempt. cbn -[base64_to_uint8_array file_to_base64]. rewrite B1, E1. cbn -[base64_to_uint8_array file_to_base64].
  eexists. reflexivity.
Qed.
Lemma colour512_watermarked : exists result,
  watermark_image Bops Toy.toy_ldpc PropsProcess2.toy_ed (fun l => l) PropsProcess2.toy_features_f64 true (repeat false 8) colour512 (f_of_Z Bops 500) (f_of_Z Bops 1) 11 = Ok result.
Proof.
  destruct C55_instance as (p & Ep & _).
  assert (W : forall (fmt : unit) (data : list Z) image, Some colour512 = Some image -> well_formed image).
  { intros _ _ im H. assert (im = colour512) by congruence. subst im. exact colour512_wf. }
  destruct (C55_models_hold_four_bytes_per_pixel _ _ _ _ _ _ unit (fun _ => Some tt) (fun _ _ => Some colour512) [] _ _ _ W Ep) as (fmt & src & wm & _ & G2 & _ & G4 & _).
  assert (src = colour512) by congruence. subst src. exists wm. exact G4.
Qed.
Example C95_instance : exists s shown,
  history (page_library Bops Toy.toy_ldpc PropsProcess2.toy_ed (fun l => l) PropsProcess2.toy_features_f64 true (repeat false 8) (fun _ => Some WebP) (fun _ _ => Some colour512))
    1 ([InitResolved; DefaultLoaded (data_url (str "image/jpeg") [1]); Select (Some (data_url (str "image/webp") [7; 9]))] ++ [FileRead 0]) s
  /\ displayed s = Some shown /\ format_line shown = str "Format: WEBP" /\ size_line shown = str "Size: 512x512" /\ shows (left_canvas shown) colour512.
Proof.
  destruct colour512_watermarked as (result & Er).
  assert (W : forall (fmt : image_format) (data : list Z) image, (fun _ _ => Some colour512) fmt data = Some image -> well_formed image).
  { cbv beta. intros _ _ im H. assert (im = colour512) by congruence. subst im. exact colour512_wf. }
  assert (Hlib : exists p, page_library Bops Toy.toy_ldpc PropsProcess2.toy_ed (fun l => l) PropsProcess2.toy_features_f64 true (repeat false 8) (fun _ => Some WebP) (fun _ _ => Some colour512) [1] = Some p).
  { unfold page_library, get_watermarking_process, get_source, get_watermarked. cbn [unwrap bind]. rewrite Er. cbn [bind]. eexists. reflexivity. }
  destruct Hlib as (p & Hp). destruct (a_history _ p Hp) as (s & Hs).
  destruct (C95_the_selected_file_is_displayed _ _ _ _ _ _ _ _ W 1%nat [InitResolved; DefaultLoaded (data_url (str "image/jpeg") [1]); Select (Some (data_url (str "image/webp") [7; 9]))]
    s (str "image/webp") [7; 9] WebP colour512 result Hs) as (shown & S1 & S2 & S3 & S4 & _).
  - exists []. reflexivity.
  - exists (str "webp"). split; [discriminate|]. split; [|reflexivity]. repeat (constructor; [cbn; tauto|]). constructor.
  - repeat constructor; unfold byte; lia.
  - reflexivity.
  - reflexivity.
  - exact Er.
  - exists s, shown. split; [exact Hs|]. split; [exact S1|]. split; [exact S2|]. split; [|exact S4]. unfold says_size in S3. rewrite S3. change (fst (dimensions colour512)) with 512%nat. change (snd (dimensions colour512)) with 512%nat. vm_compute. reflexivity.
Qed.

Print Assumptions C95_what_is_displayed_for_a_file.
Print Assumptions C95_what_the_page_displays.
Print Assumptions C95_the_selected_file_is_displayed.
Print Assumptions C95_the_lines_can_be_read_back.
