(** Property C73: the objects the library hands to JavaScript, over all sequences of calls
    (lib/sia/rust/web/src/image_model.rs, watermarking_process.rs, src/Content/utils.ts:33-49). *)
From Verif Require Import Outcome Bits Web WebHeap.
Open Scope Z_scope.

(** ** Specification vocabulary *)
(** The call passes model [m] to the library by value, or frees it. *)
Definition gives_away (m : nat) (o : op) : Prop :=
  match o with FreeModel k => k = m | NewProcess _ s w => s = m \/ w = m | SetSource _ k | SetWatermarked _ k => k = m | _ => False end.
(** The model can be used: asking for its width does not throw. *)
Definition usable_model (os : list op) (m : nat) : Prop := answer_after os (GetWidth m) <> Throws.
Definition usable_process (os : list op) (p : nat) : Prop := answer_after os (GetFormat p) <> Throws.
(** The call names array [b]. *)
Definition names_array (b : nat) (o : op) : Prop :=
  match o with WriteArray a _ _ | NewModel _ _ a | SetData _ a => a = b | _ => False end.

(** ** helpers *)
Definition next (h : heap) (o : op) : heap := fst (call h o).
Fixpoint nexts (h : heap) (os : list op) : heap := match os with [] => h | o :: t => nexts (next h o) t end.
Lemma calls_nexts h os : fst (calls_of h os) = nexts h os.
Proof.
  revert h. induction os as [|o t IH]; intros h; [reflexivity|]. cbn [calls_of nexts]. unfold next. destruct (call h o) as (h1, a) eqn:E. cbn [fst]. rewrite <- IH.
  destruct (calls_of h1 t); reflexivity.
Qed.
Lemma after_app a b : after (a ++ b) = nexts (after a) b.
Proof.
  unfold after. rewrite !calls_nexts. generalize empty_heap. induction a as [|o t IH]; intros h; [reflexivity|]. apply IH.
Qed.
Lemma after_nil_snoc a o : after (a ++ [o]) = next (after a) o.
Proof. rewrite after_app. reflexivity. Qed.

Lemma update_same {A} (l : list A) i x : (i < length l)%nat -> nth_error (update l i x) i = Some x.
Proof. revert i. induction l as [|y t IH]; intros [|i] H; cbn in *; try lia; [reflexivity|apply IH; lia]. Qed.
Lemma update_other {A} (l : list A) i j x : i <> j -> nth_error (update l i x) j = nth_error l j.
Proof. revert i j. induction l as [|y t IH]; intros [|i] [|j] H; cbn; try congruence; try reflexivity. apply IH. congruence. Qed.
Lemma update_length {A} (l : list A) i x : length (update l i x) = length l.
Proof. revert i. induction l as [|y t IH]; intros [|i]; cbn; try reflexivity. now rewrite IH. Qed.
Lemma live_lt {A} (l : list (option A)) i x : live l i = Some x -> (i < length l)%nat.
Proof. unfold live. intros H. apply nth_error_Some. destruct (nth_error l i); [discriminate|discriminate]. Qed.
Lemma live_snoc {A} (l : list (option A)) i x y : live l i = Some x -> live (l ++ [y]) i = Some x.
Proof. intros H. pose proof (live_lt _ _ _ H). unfold live in *. rewrite nth_error_app1; assumption. Qed.
Lemma live_new {A} (l : list (option A)) x : live (l ++ [Some x]) (length l) = Some x.
Proof. unfold live. rewrite nth_error_app2, Nat.sub_diag by lia. reflexivity. Qed.
Lemma live_other {A} (l : list (option A)) i j x : i <> j -> live (update l i x) j = live l j.
Proof. intros H. unfold live. now rewrite update_other. Qed.
Lemma live_put {A} (l : list (option A)) i x y : live l i = Some x -> live (update l i (Some y)) i = Some y.
Proof. intros H. unfold live. rewrite update_same by (eapply live_lt; eauto). reflexivity. Qed.
Lemma live_none {A} (l : list (option A)) i : live (update l i None) i = None.
Proof. unfold live. destruct (Nat.lt_ge_cases i (length l)) as [H|H]; [now rewrite update_same|]. rewrite (proj2 (nth_error_None _ _)); [reflexivity|]. now rewrite update_length. Qed.

Ltac cases_of_call :=
  repeat match goal with
  | |- context [match live ?l ?i with _ => _ end] => let E := fresh "L" in destruct (live l i) as [?|] eqn:E; cbn [fst snd]
  | |- context [match nth_error ?l ?i with _ => _ end] => let E := fresh "N" in destruct (nth_error l i) as [?|] eqn:E; cbn [fst snd]
  end.
(** One call, seen from one model handle. *)
Lemma model_step h o m x : live (models h) m = Some x -> ~ gives_away m o ->
  exists x', live (models (next h o)) m = Some x'
    /\ ((forall v, o <> SetWidth m v) -> m_width x' = m_width x) /\ ((forall v, o <> SetHeight m v) -> m_height x' = m_height x) /\ ((forall v, o <> SetData m v) -> m_data x' = m_data x).
Proof.
  intros Hx Hg. assert (Same : forall h', models h' = models h -> exists x', live (models h') m = Some x'
    /\ ((forall v, o <> SetWidth m v) -> m_width x' = m_width x) /\ ((forall v, o <> SetHeight m v) -> m_height x' = m_height x) /\ ((forall v, o <> SetData m v) -> m_data x' = m_data x)).
  { intros h' E. exists x. rewrite E. auto. }
  assert (Add : forall h' y, models h' = models h ++ [y] -> exists x', live (models h') m = Some x'
    /\ ((forall v, o <> SetWidth m v) -> m_width x' = m_width x) /\ ((forall v, o <> SetHeight m v) -> m_height x' = m_height x) /\ ((forall v, o <> SetData m v) -> m_data x' = m_data x)).
  { intros h' y E. exists x. rewrite E. split; [now apply live_snoc|auto]. }
  unfold next. destruct o; cbn [call gives_away] in *; cases_of_call; try (apply Same; reflexivity); try (eapply Add; reflexivity);
    unfold put_model, consume, add_process, put_process; cbn [models set_models set_processes];
    try (exists x; rewrite !live_other by tauto; split; [exact Hx|auto]; fail).
  - destruct (Nat.eq_dec m0 m) as [ -> |Hne]; [|exists x; rewrite live_other by assumption; auto].
    assert (m1 = x) by congruence. subst m1. eexists. split; [eapply live_put; eassumption|]. cbn. split; [intros H; now specialize (H width)|auto].
  - destruct (Nat.eq_dec m0 m) as [ -> |Hne]; [|exists x; rewrite live_other by assumption; auto].
    assert (m1 = x) by congruence. subst m1. eexists. split; [eapply live_put; eassumption|]. cbn. split; [auto|split; [intros H; now specialize (H height)|auto]].
  - destruct (Nat.eq_dec m0 m) as [ -> |Hne]; [|exists x; rewrite live_other by assumption; auto].
    assert (m1 = x) by congruence. subst m1. eexists. split; [eapply live_put; eassumption|]. cbn. split; [auto|split; [auto|intros H; now specialize (H a)]].
Qed.
(** The same for a process handle. *)
Lemma process_step h o p x : live (processes h) p = Some x -> o <> FreeProcess p ->
  exists x', live (processes (next h o)) p = Some x'
    /\ ((forall f, o <> SetFormat p f) -> p_format x' = p_format x) /\ ((forall m, o <> SetSource p m) -> p_source x' = p_source x)
    /\ ((forall m, o <> SetWatermarked p m) -> p_watermarked x' = p_watermarked x).
Proof.
  intros Hx Hg. set (Q := fun h' : heap => exists x', live (processes h') p = Some x'
    /\ ((forall f, o <> SetFormat p f) -> p_format x' = p_format x) /\ ((forall m, o <> SetSource p m) -> p_source x' = p_source x)
    /\ ((forall m, o <> SetWatermarked p m) -> p_watermarked x' = p_watermarked x)). change (Q (next h o)).
  assert (Same : forall h', processes h' = processes h -> Q h') by (intros h' E; exists x; rewrite E; auto).
  assert (Add : forall h' y, processes h' = processes h ++ [y] -> Q h') by (intros h' y E; exists x; rewrite E; split; [now apply live_snoc|auto]).
  unfold next. destruct o; cbn [call]; cases_of_call; try (apply Same; reflexivity); try (eapply Add; reflexivity); unfold Q, put_process; cbn [processes set_processes].
  - destruct (Nat.eq_dec p0 p) as [ -> |Hne]; [|exists x; rewrite live_other by assumption; auto].
    assert (p1 = x) by congruence. subst p1. eexists. split; [eapply live_put; eassumption|]. cbn. split; [intros H; now specialize (H format)|auto].
  - destruct (Nat.eq_dec p0 p) as [ -> |Hne]; [|exists x; unfold consume; cbn [processes set_models]; rewrite live_other by assumption; auto].
    assert (p1 = x) by congruence. subst p1. eexists. split; [eapply live_put; eassumption|]. cbn. split; [auto|split; [intros H; now specialize (H m)|auto]].
  - destruct (Nat.eq_dec p0 p) as [ -> |Hne]; [|exists x; unfold consume; cbn [processes set_models]; rewrite live_other by assumption; auto].
    assert (p1 = x) by congruence. subst p1. eexists. split; [eapply live_put; eassumption|]. cbn. split; [auto|split; [auto|intros H; now specialize (H m)]].
  - exists x. rewrite live_other by congruence. auto.
Qed.
(** A handle that has been used up stays so. *)
Lemma dead_step h o m : (m < length (models h))%nat -> live (models h) m = None -> (m < length (models (next h o)))%nat /\ live (models (next h o)) m = None.
Proof.
  intros Hm Hd. set (Q := fun h' : heap => (m < length (models h'))%nat /\ live (models h') m = None). change (Q (next h o)).
  assert (Same : forall h', models h' = models h -> Q h') by (intros h' E; unfold Q; now rewrite E).
  assert (Add : forall h' y, models h' = models h ++ [y] -> Q h').
  { intros h' y E. unfold Q. rewrite E, app_length. split; [lia|]. unfold live in *. now rewrite nth_error_app1. }
  assert (Cons : forall l k, (m < length l)%nat -> live l m = None -> (m < length (update l k (@None model_object)))%nat /\ live (update l k None) m = None).
  { intros l k Hl Hn. rewrite update_length. split; [exact Hl|]. destruct (Nat.eq_dec k m) as [ -> |Hne]; [apply live_none|now rewrite live_other]. }
  assert (Put : forall k y z, live (models h) k = Some z -> (m < length (update (models h) k y))%nat /\ live (update (models h) k y) m = None).
  { intros k y z Hk. rewrite update_length. split; [exact Hm|]. rewrite live_other; [exact Hd|]. intros ->. congruence. }
  unfold next. destruct o; cbn [call]; cases_of_call; try (apply Same; reflexivity); try (eapply Add; reflexivity); unfold Q, put_model, consume, add_process, put_process;
    cbn [models set_models set_processes]; try (eapply Put; eassumption); repeat (apply Cons); assumption.
Qed.
Lemma given_dead h o m x : live (models h) m = Some x -> gives_away m o -> (m < length (models (next h o)))%nat /\ live (models (next h o)) m = None.
Proof.
  intros Hx Hg. pose proof (live_lt _ _ _ Hx) as Hm.
  assert (D1 : live (update (models h) m None) m = None) by apply live_none.
  assert (Hu : forall k, live (update (update (models h) m None) k None) m = None).
  { intros k. destruct (Nat.eq_dec k m) as [ -> |Hne]; [apply live_none|now rewrite live_other]. }
  assert (Hu' : forall k, live (update (update (models h) k None) m None) m = None) by (intros; apply live_none).
  unfold next. destruct o; cbn [gives_away] in Hg; try contradiction; cbn [call]; try (destruct Hg as [ -> | -> ]); try subst; cases_of_call; try congruence;
    unfold consume, add_process, put_process; cbn [models set_models set_processes]; rewrite ?update_length; (split; [exact Hm|]); auto.
Qed.

(** References point to arrays that exist. *)
Definition refs_ok (h : heap) (bound : nat -> Prop) : Prop :=
  (forall m x, live (models h) m = Some x -> bound (m_data x))
  /\ (forall p x, live (processes h) p = Some x -> bound (m_data (p_source x)) /\ bound (m_data (p_watermarked x))).
Lemma live_snoc_inv {A} (l : list (option A)) y i x : live (l ++ [y]) i = Some x -> live l i = Some x \/ y = Some x.
Proof.
  unfold live. destruct (Nat.lt_ge_cases i (length l)) as [H|H]; [rewrite nth_error_app1 by exact H; now left|]. rewrite nth_error_app2 by exact H.
  destruct (i - length l)%nat as [|k]; cbn; [|destruct k; discriminate]. destruct y; [|discriminate]. intros E. right. congruence.
Qed.
Lemma live_update_inv {A} (l : list (option A)) k y i x : live (update l k y) i = Some x -> live l i = Some x \/ y = Some x.
Proof.
  destruct (Nat.eq_dec k i) as [ -> |Hne]; [|rewrite live_other by exact Hne; now left]. unfold live. destruct (Nat.lt_ge_cases i (length l)) as [H|H].
  - rewrite update_same by exact H. destruct y; [|discriminate]. intros E. right. congruence.
  - rewrite (proj2 (nth_error_None _ _)); [discriminate|]. now rewrite update_length.
Qed.
Lemma refs_step h o (B : nat -> Prop) : refs_ok h B ->
  (forall a, (exists w t, o = NewModel w t a) \/ (exists m, o = SetData m a) -> (a < length (arrays h))%nat -> B a) ->
  (forall r, o = Deliver r -> B (length (arrays h)) /\ B (S (length (arrays h)))) -> refs_ok (next h o) B.
Proof.
  intros (R1 & R2) HN HD.
  assert (Same : forall h', models h' = models h -> processes h' = processes h -> refs_ok h' B) by (intros h' E1 E2; unfold refs_ok; rewrite E1, E2; split; assumption).
  assert (M : forall l, (forall i x, live l i = Some x -> live (models h) i = Some x \/ B (m_data x)) -> forall i x, live l i = Some x -> B (m_data x)).
  { intros l Hl i x Hx. destruct (Hl i x Hx) as [H|H]; [eauto|exact H]. }
  assert (Cons : forall k i x, live (update (models h) k None) i = Some x -> B (m_data x)).
  { intros k i x Hx. apply live_update_inv in Hx as [Hx|Hx]; [eauto|discriminate]. }
  assert (Cons2 : forall k k' i x, live (update (update (models h) k None) k' None) i = Some x -> B (m_data x)).
  { intros k k' i x Hx. apply live_update_inv in Hx as [Hx|Hx]; [eapply Cons; eauto|discriminate]. }
  unfold next. destruct o; cbn [call]; cases_of_call; try (apply Same; reflexivity); split; unfold add_model, put_model, consume, add_process, put_process, set_arrays in *;
    cbn [models set_models set_processes processes arrays] in *; try assumption; try (apply Cons); try (apply Cons2); intros i x Hx;
    try (apply live_snoc_inv in Hx as [Hx|Hx]; [eauto|injection Hx as <-]); try (apply live_update_inv in Hx as [Hx|Hx]; [eauto|try discriminate; injection Hx as <-]);
    cbn [m_data p_source p_watermarked]; try (eapply R1; eassumption).
  all: try (split; first [eapply R1; eassumption | eapply Cons; eassumption | eapply R2; eassumption]).
  all: try (apply R2 in L; tauto).
  all: try (apply HN; [eauto|apply nth_error_Some; congruence]).
  all: try (exact (HD _ eq_refl)).
Qed.

Lemma models_later h later m x : live (models h) m = Some x -> Forall (fun o => ~ gives_away m o) later ->
  exists x', live (models (nexts h later)) m = Some x'
    /\ (Forall (fun o => forall v, o <> SetWidth m v) later -> m_width x' = m_width x) /\ (Forall (fun o => forall v, o <> SetHeight m v) later -> m_height x' = m_height x)
    /\ (Forall (fun o => forall v, o <> SetData m v) later -> m_data x' = m_data x).
Proof.
  revert h x. induction later as [|o t IH]; intros h x Hx Hg; cbn [nexts]; [exists x; auto|]. inversion Hg as [|? ? Ho Ht]; subst.
  destruct (model_step h o m x Hx Ho) as (x1 & H1 & A1 & B1 & C1). destruct (IH (next h o) x1 H1 Ht) as (x2 & H2 & A2 & B2 & C2). exists x2. split; [exact H2|].
  repeat split; intros HF; inversion HF; subst; [rewrite A2, A1|rewrite B2, B1|rewrite C2, C1]; auto.
Qed.
Lemma processes_later h later p x : live (processes h) p = Some x -> Forall (fun o => o <> FreeProcess p) later ->
  exists x', live (processes (nexts h later)) p = Some x'
    /\ (Forall (fun o => forall f, o <> SetFormat p f) later -> p_format x' = p_format x) /\ (Forall (fun o => forall m, o <> SetSource p m) later -> p_source x' = p_source x)
    /\ (Forall (fun o => forall m, o <> SetWatermarked p m) later -> p_watermarked x' = p_watermarked x).
Proof.
  revert h x. induction later as [|o t IH]; intros h x Hx Hg; cbn [nexts]; [exists x; auto|]. inversion Hg as [|? ? Ho Ht]; subst.
  destruct (process_step h o p x Hx Ho) as (x1 & H1 & A1 & B1 & C1). destruct (IH (next h o) x1 H1 Ht) as (x2 & H2 & A2 & B2 & C2). exists x2. split; [exact H2|].
  repeat split; intros HF; inversion HF; subst; [rewrite A2, A1|rewrite B2, B1|rewrite C2, C1]; auto.
Qed.
Lemma usable_live os m : usable_model os m <-> exists x, live (models (after os)) m = Some x.
Proof.
  unfold usable_model, answer_after. cbn [call]. destruct (live _ _) as [x|]; cbn [snd]; split; intros H; [eauto|discriminate|congruence|destruct H as (x & H); discriminate].
Qed.
Lemma usable_live_p os p : usable_process os p <-> exists x, live (processes (after os)) p = Some x.
Proof.
  unfold usable_process, answer_after. cbn [call]. destruct (live _ _) as [x|]; cbn [snd]; split; intros H; [eauto|discriminate|congruence|destruct H as (x & H); discriminate].
Qed.

(** *** C73: fields of models and processes *)
(** A field keeps its value until its own setter is called on that object or the object is given away, whatever else is called in
    between, and a setter's value is what is read back. *)
Theorem C73_fields_of_models_persist : forall before m, usable_model before m ->
  forall later, Forall (fun o => ~ gives_away m o) later ->
  (Forall (fun o => forall v, o <> SetWidth m v) later -> answer_after (before ++ later) (GetWidth m) = answer_after before (GetWidth m)
     /\ forall w, answer_after (before ++ SetWidth m w :: later) (GetWidth m) = Number (w mod 2 ^ 32))
  /\ (Forall (fun o => forall v, o <> SetHeight m v) later -> answer_after (before ++ later) (GetHeight m) = answer_after before (GetHeight m)
     /\ forall w, answer_after (before ++ SetHeight m w :: later) (GetHeight m) = Number (w mod 2 ^ 32))
  /\ (Forall (fun o => forall v, o <> SetData m v) later -> answer_after (before ++ later) (GetData m) = answer_after before (GetData m)
     /\ forall a, answer_after before (ReadArray a) <> Throws -> answer_after (before ++ SetData m a :: later) (GetData m) = Array a).
Proof.
  intros before m Hu later Hl. apply usable_live in Hu as (x & Hx). unfold answer_after. 
  assert (Keep : forall h y, live (models h) m = Some y -> exists x', live (models (nexts h later)) m = Some x'
    /\ (Forall (fun o => forall v, o <> SetWidth m v) later -> m_width x' = m_width y) /\ (Forall (fun o => forall v, o <> SetHeight m v) later -> m_height x' = m_height y)
    /\ (Forall (fun o => forall v, o <> SetData m v) later -> m_data x' = m_data y)) by (intros h y Hy; now apply models_later).
  destruct (Keep _ x Hx) as (x' & Hx' & A & B & C).
  repeat split; try intros v; try intros Hr; rewrite after_app; cbn [nexts].
  - cbn [call]. rewrite Hx', Hx. cbn [snd]. now rewrite A.
  - destruct (Keep (next (after before) (SetWidth m v)) (mkModelObject (u32 v) (m_height x) (m_data x))) as (y & Hy & A' & _).
    { unfold next. cbn [call]. rewrite Hx. cbn [fst put_model set_models models]. eapply live_put; eassumption. }
    cbn [call]. rewrite Hy. cbn [snd]. now rewrite A'.
  - cbn [call]. rewrite Hx', Hx. cbn [snd]. now rewrite B.
  - destruct (Keep (next (after before) (SetHeight m v)) (mkModelObject (m_width x) (u32 v) (m_data x))) as (y & Hy & _ & B' & _).
    { unfold next. cbn [call]. rewrite Hx. cbn [fst put_model set_models models]. eapply live_put; eassumption. }
    cbn [call]. rewrite Hy. cbn [snd]. now rewrite B'.
  - cbn [call]. rewrite Hx', Hx. cbn [snd]. now rewrite C.
  - destruct (Keep (next (after before) (SetData m v)) (mkModelObject (m_width x) (m_height x) v)) as (y & Hy & _ & _ & C').
    { unfold next. cbn [call] in Hr |- *. rewrite Hx. destruct (nth_error _ _); [|cbn in Hr; congruence]. cbn [fst put_model set_models models]. eapply live_put; eassumption. }
    cbn [call]. rewrite Hy. cbn [snd]. now rewrite C'.
Qed.
Theorem C73_the_format_of_a_process_persists : forall before p, usable_process before p ->
  forall later, Forall (fun o => o <> FreeProcess p /\ forall f, o <> SetFormat p f) later ->
  answer_after (before ++ later) (GetFormat p) = answer_after before (GetFormat p)
  /\ forall f, answer_after (before ++ SetFormat p f :: later) (GetFormat p) = Text f.
Proof.
  intros before p Hu later Hl. apply usable_live_p in Hu as (x & Hx). unfold answer_after.
  assert (L1 : Forall (fun o => o <> FreeProcess p) later) by (eapply Forall_impl; [|exact Hl]; intros ? (? & ?); assumption).
  assert (L2 : Forall (fun o => forall f, o <> SetFormat p f) later) by (eapply Forall_impl; [|exact Hl]; intros ? (? & ?); assumption).
  split; [|intros f]; rewrite after_app; cbn [nexts].
  - destruct (processes_later _ later p x Hx L1) as (y & Hy & A & _). cbn [call]. rewrite Hy, Hx. cbn [snd]. now rewrite A.
  - destruct (processes_later (next (after before) (SetFormat p f)) later p (mkProcessObject f (p_source x) (p_watermarked x))) as (y & Hy & A & _); [|exact L1|].
    { unfold next. cbn [call]. rewrite Hx. cbn [fst put_process set_processes processes]. eapply live_put; eassumption. }
    cbn [call]. rewrite Hy. cbn [snd]. now rewrite A.
Qed.

(** Once given away a model is gone for good: every call on it throws. *)
Theorem C73_a_model_given_away_is_gone : forall before m o later, usable_model before m -> gives_away m o ->
  forall w a, let os := (before ++ o :: later)%list in
  answer_after os (GetWidth m) = Throws /\ answer_after os (SetWidth m w) = Throws /\ answer_after os (GetHeight m) = Throws /\ answer_after os (SetHeight m w) = Throws
  /\ answer_after os (GetData m) = Throws /\ answer_after os (SetData m a) = Throws /\ answer_after os (FreeModel m) = Throws
  /\ (forall p, answer_after os (SetSource p m) = Throws) /\ (forall p, answer_after os (SetWatermarked p m) = Throws)
  /\ (forall f k, answer_after os (NewProcess f m k) = Throws) /\ (forall f k, answer_after os (NewProcess f k m) = Throws).
Proof.
  intros before m o later Hu Hg w a os. apply usable_live in Hu as (x & Hx).
  assert (D : live (models (after os)) m = None).
  { unfold os. rewrite after_app. cbn [nexts]. destruct (given_dead _ o m x Hx Hg) as (H1 & H2). revert H1 H2. generalize (next (after before) o). clear.
    induction later as [|o t IH]; intros h H1 H2; cbn [nexts]; [exact H2|]. destruct (dead_step h o m H1 H2). now apply IH. }
  assert (D2 : forall k, live (models (consume (after os) k)) m = None).
  { intros k. unfold consume. cbn [models set_models]. destruct (Nat.eq_dec k m) as [ -> |Hne]; [apply live_none|now rewrite live_other]. }
  unfold answer_after. cbn [call]. rewrite D. cbn [snd]. clear Hx. repeat split; try reflexivity; intros; rewrite ?D, ?D2; cbn [snd]; try reflexivity;
    match goal with |- context [live ?l ?i] => destruct (live l i) end; reflexivity.
Qed.

(** *** C73: sharing *)
(** Every model got from a process is a new object with the process's width and height, but all of them, and the process itself, share one
    array: setting a width or height on such a model never reaches the process, writing to its array always does. *)
Theorem C73_models_of_a_process_share_the_array_only : forall before p m, answer_after before (GetSource p) = Model m ->
  exists w ht a,
    let first := (before ++ [GetSource p])%list in
    answer_after first (GetWidth m) = Number w /\ answer_after first (GetHeight m) = Number ht /\ answer_after first (GetData m) = Array a
    /\ ~ usable_model before m
    /\ forall later, Forall (fun o => o <> FreeProcess p /\ forall k, o <> SetSource p k) later ->
       exists m', answer_after (first ++ later) (GetSource p) = Model m'
         /\ let second := (first ++ later ++ [GetSource p])%list in
            answer_after second (GetWidth m') = Number w /\ answer_after second (GetHeight m') = Number ht /\ answer_after second (GetData m') = Array a
            /\ ~ usable_model (first ++ later) m'.
Proof.
  intros before p m H. unfold answer_after in H. cbn [call] in H. destruct (live (processes (after before)) p) as [x|] eqn:Hx; [|discriminate]. cbn [snd] in H.
  assert (Em : m = length (models (after before))) by congruence. subst m.
  assert (Hf : after (before ++ [GetSource p]) = add_model (after before) (p_source x)) by (rewrite after_nil_snoc; unfold next; cbn [call]; now rewrite Hx).
  assert (Hd : forall os k, live (models (after os)) k = None -> ~ usable_model os k) by (intros os k E (y & Hy)%usable_live; congruence).
  assert (Hlen : forall (l : list (option model_object)), live l (length l) = None) by (intros l; unfold live; now rewrite (proj2 (nth_error_None l (length l)) (le_n _))).
  exists (m_width (p_source x)), (m_height (p_source x)), (m_data (p_source x)). cbv zeta.
  unfold answer_after at 1 2 3. rewrite Hf. cbn [call]. unfold add_model. cbn [models set_models]. rewrite live_new. cbn [snd].
  repeat split; [apply Hd, Hlen|]. intros later Hl.
  assert (L1 : Forall (fun o => o <> FreeProcess p) later) by (eapply Forall_impl; [|exact Hl]; intros ? (? & ?); assumption).
  assert (L2 : Forall (fun o => forall f, o <> SetSource p f) later) by (eapply Forall_impl; [|exact Hl]; intros ? (? & ?); assumption).
  destruct (processes_later (after (before ++ [GetSource p])) later p x) as (y & Hy & _ & B & _); [rewrite Hf; exact Hx|exact L1|]. specialize (B L2).
  rewrite <- after_app in Hy. set (mid := ((before ++ [GetSource p]) ++ later)%list) in *.
  exists (length (models (after mid))). split; [unfold answer_after; cbn [call]; rewrite Hy; reflexivity|].
  assert (Hf2 : after ((before ++ [GetSource p]) ++ later ++ [GetSource p]) = add_model (after mid) (p_source x)).
  { rewrite app_assoc. fold mid. rewrite after_nil_snoc. unfold next. cbn [call]. rewrite Hy. cbn [fst]. now rewrite B. }
  unfold answer_after at 1 2 3. rewrite Hf2. cbn [call]. unfold add_model. cbn [models set_models]. rewrite live_new. cbn [snd]. repeat split. apply Hd, Hlen.
Qed.

(** A slice is a copy nobody else holds: unless the program passes it on itself, its bytes never change and no object ever answers it. *)
Lemma refs_after os : refs_ok (after os) (fun a => (a < length (arrays (after os)))%nat).
Proof.
  induction os as [|o t IH] using rev_ind.
  - split; [intros m x H|intros p x H]; unfold live, after in H; cbn in H; [destruct m|destruct p]; discriminate.
  - rewrite after_nil_snoc. set (h := after t) in *. set (N := length (arrays (next h o))).
    assert (Grow : (length (arrays h) <= N)%nat).
    { unfold N, next. destruct o; cbn [call]; cases_of_call; unfold add_array, add_process, add_model, put_model, put_process, consume, set_arrays; cbn [arrays set_models set_processes fst snd];
        rewrite ?app_length, ?update_length; cbn [length]; try lia. }
    assert (IH' : refs_ok h (fun a => (a < N)%nat)).
    { destruct IH as (H1 & H2). split; [intros m x Hm; specialize (H1 m x Hm); lia|intros p x Hp; specialize (H2 p x Hp); lia]. }
    apply refs_step; [exact IH'|intros a _ Ha; lia|].
    intros r ->. unfold N, next. cbn [call fst add_process set_arrays set_processes arrays]. rewrite app_length. cbn [length]. lia.
Qed.
Theorem C73_a_slice_is_private : forall before a b, answer_after before (SliceArray a) = Array b ->
  exists content, answer_after before (ReadArray a) = Bytes content
    /\ forall later, Forall (fun o => ~ names_array b o) later ->
       answer_after (before ++ SliceArray a :: later) (ReadArray b) = Bytes content
       /\ forall m, answer_after (before ++ SliceArray a :: later) (GetData m) <> Array b.
Proof.
  intros before a b H. unfold answer_after in H. cbn [call] in H. destruct (nth_error (arrays (after before)) a) as [l|] eqn:El; [|discriminate]. cbn [snd] in H.
  assert (Eb : b = length (arrays (after before))) by congruence.
  exists l. split; [unfold answer_after; cbn [call]; now rewrite El|]. intros later Hl.
  assert (S0 : let h := next (after before) (SliceArray a) in nth_error (arrays h) b = Some l /\ refs_ok h (fun k => k <> b)).
  { unfold next. cbn [call]. rewrite El. cbn [fst]. unfold add_array. split.
    - cbn [arrays set_arrays]. rewrite nth_error_app2 by lia. now rewrite Eb, Nat.sub_diag.
    - destruct (refs_after before) as (R1 & R2). split; [intros m x Hm; specialize (R1 m x Hm); lia|intros p x Hp; specialize (R2 p x Hp); lia]. }
  unfold answer_after. rewrite after_app. cbn [nexts]. revert S0. generalize (next (after before) (SliceArray a)). cbv zeta. clear - Hl.
  induction Hl as [|o t Ho _ IH]; intros h (Hb & R); cbn [nexts].
  - split; [cbn [call]; now rewrite Hb|]. intros m. cbn [call]. destruct (live (models h) m) as [x|] eqn:Ex; cbn [snd]; [|discriminate]. destruct R as (R & _). specialize (R m x Ex). congruence.
  - apply IH. assert (Hlt : (b < length (arrays h))%nat) by (apply nth_error_Some; congruence). split.
    + unfold next. destruct o; cbn [call names_array] in *; cases_of_call; unfold add_array, add_process, add_model, put_model, put_process, consume, set_arrays; cbn [arrays set_models set_processes fst snd];
        try exact Hb; try (rewrite nth_error_app1 by exact Hlt; exact Hb). rewrite update_other by congruence. exact Hb.
    + apply refs_step; [exact R| |].
      * intros k [(w & v & ->)|(m & ->)] _; cbn [names_array] in Ho; exact Ho.
      * intros r ->. lia.
Qed.

(** *** C73: delivery to the page *)
(** toWatermarkingProcess on a process just delivered by get_watermarking_process yields the format, sizes and bytes of the two pictures;
    the arrays that existed before (such as the uploaded file) are untouched. *)
Theorem C73_the_page_gets_what_the_library_computed : forall before (r : watermarking_process (list Z)) p,
  bytes (model_data (source_model r)) -> bytes (model_data (watermarked_model r)) ->
  (forall m, m = source_model r \/ m = watermarked_model r -> Z.of_nat (model_width m) < 2 ^ 32 /\ Z.of_nat (model_height m) < 2 ^ 32) ->
  answer_after before (Deliver r) = Process p ->
  exists h source watermarked, to_watermarking_process (after (before ++ [Deliver r])) p = Some (h, (source_format r, source, watermarked))
    /\ plain_width source = Z.of_nat (model_width (source_model r)) /\ plain_height source = Z.of_nat (model_height (source_model r))
    /\ nth_error (arrays h) (plain_data source) = Some (model_data (source_model r))
    /\ plain_width watermarked = Z.of_nat (model_width (watermarked_model r)) /\ plain_height watermarked = Z.of_nat (model_height (watermarked_model r))
    /\ nth_error (arrays h) (plain_data watermarked) = Some (model_data (watermarked_model r))
    /\ plain_data source <> plain_data watermarked
    /\ forall a content, answer_after before (ReadArray a) = Bytes content -> nth_error (arrays h) a = Some content /\ a <> plain_data source /\ a <> plain_data watermarked.
Proof.
  intros before r p Bs Bw Hdim H. unfold answer_after in H. cbn [call snd] in H. assert (Ep : p = length (processes (after before))) by congruence.
  assert (Hid : forall l, bytes l -> map byte_of l = l).
  { intros l Hl. induction Hl as [|x t Hx _ IH]; [reflexivity|]. cbn [map]. rewrite IH. unfold byte_of. unfold byte in Hx. now rewrite Z.mod_small by lia. }
  destruct (Hdim _ (or_introl eq_refl)) as (W1 & H1). destruct (Hdim _ (or_intror eq_refl)) as (W2 & H2).
  rewrite after_nil_snoc. unfold next. cbn [call fst]. rewrite !Hid by assumption. unfold u32. rewrite !Z.mod_small by lia.
  set (h0 := after before) in *. set (N := length (arrays h0)) in *. set (src := model_data (source_model r)) in *. set (wm := model_data (watermarked_model r)) in *.
  set (os := mkModelObject _ _ N). set (ow := mkModelObject _ _ (S N)). set (h1 := add_process _ _).
  assert (P1 : live (processes h1) p = Some (mkProcessObject (source_format r) os ow)) by (unfold h1, add_process; cbn [processes set_processes set_arrays]; rewrite Ep; apply live_new).
  assert (A1 : arrays h1 = arrays h0 ++ [src; wm]) by reflexivity.
  set (h2 := add_model h1 os). set (h3 := add_array h2 src). set (h4 := add_model h3 ow). set (h5 := add_array h4 wm).
  assert (T1 : to_image_model h2 (length (models h1)) = Some (h3, mkPlain (m_width os) (m_height os) (S (S N)))).
  { unfold to_image_model, h2, add_model. cbn [call models set_models]. rewrite live_new. cbn [call arrays set_models m_data os]. rewrite A1.
    rewrite nth_error_app2 by (unfold N; lia). unfold N. rewrite Nat.sub_diag. cbn [nth_error]. rewrite app_length. cbn [length]. repeat f_equal. lia. }
  assert (T2 : to_image_model h4 (length (models h3)) = Some (h5, mkPlain (m_width ow) (m_height ow) (S (S (S N))))).
  { unfold to_image_model, h4, add_model. cbn [call models set_models]. rewrite live_new. cbn [call arrays set_models m_data ow h3 add_array set_arrays h2 add_model]. rewrite A1.
    rewrite <- app_assoc. rewrite nth_error_app2 by (unfold N; lia). replace (S N - length (arrays h0))%nat with 1%nat by (unfold N; lia). cbn [nth_error app]. rewrite app_length. cbn [length]. repeat f_equal. unfold N. lia. }
  exists h5, (mkPlain (m_width os) (m_height os) (S (S N))), (mkPlain (m_width ow) (m_height ow) (S (S (S N)))).
  split.
  - unfold to_watermarking_process. cbn [call]. rewrite P1. cbn [p_format p_source]. fold h2. rewrite T1.
    cbn [call]. replace (live (processes h3) p) with (Some (mkProcessObject (source_format r) os ow)) by (rewrite <- P1; reflexivity). cbn [p_watermarked]. fold h4. rewrite T2. reflexivity.
  - assert (A5 : arrays h5 = arrays h0 ++ [src; wm; src; wm]).
    { unfold h5, h4, h3, h2, add_array, add_model. cbn [arrays set_arrays set_models]. rewrite A1. rewrite <- !app_assoc. reflexivity. }
    cbn [plain_width plain_height plain_data m_width m_height os ow]. rewrite A5. repeat split; try reflexivity.
    + rewrite nth_error_app2 by (unfold N; lia). replace (S (S N) - length (arrays h0))%nat with 2%nat by (unfold N; lia). reflexivity.
    + rewrite nth_error_app2 by (unfold N; lia). replace (S (S (S N)) - length (arrays h0))%nat with 3%nat by (unfold N; lia). reflexivity.
    + lia.
    + unfold answer_after in H0. cbn [call] in H0. fold h0 in H0. destruct (nth_error (arrays h0) a) as [l|] eqn:El; [|discriminate]. cbn [snd] in H0. assert (l = content) by congruence. subst l.
      rewrite nth_error_app1; [exact El|]. apply nth_error_Some. congruence.
    + unfold answer_after in H0. cbn [call] in H0. fold h0 in H0. destruct (nth_error (arrays h0) a) as [l|] eqn:El; [|discriminate].
      assert (a < N)%nat by (unfold N; apply nth_error_Some; congruence). lia.
    + unfold answer_after in H0. cbn [call] in H0. fold h0 in H0. destruct (nth_error (arrays h0) a) as [l|] eqn:El; [|discriminate].
      assert (a < N)%nat by (unfold N; apply nth_error_Some; congruence). lia.
Qed.

(** ** Concrete case *)
Definition toy_delivery : watermarking_process (list Z) := mkProcess [80; 110; 103] (mkImageModel 1 1 [1; 2; 3; 255]) (mkImageModel 1 1 [4; 5; 6; 255]).
Example C73_instance :
  answer_after [] (Deliver toy_delivery) = Process 0
  /\ answer_after [Deliver toy_delivery] (GetSource 0) = Model 0
  /\ usable_model [Deliver toy_delivery; GetSource 0] 0 /\ gives_away 0 (SetWatermarked 0 0)
  (* a byte written through one copy shows in the next *)
  /\ answer_after [Deliver toy_delivery; GetSource 0; SetWidth 0 7; WriteArray 0 0 99; GetSource 0] (GetWidth 1) = Number 1
  /\ answer_after [Deliver toy_delivery; GetSource 0; SetWidth 0 7; WriteArray 0 0 99; GetSource 0] (GetData 1) = Array 0
  /\ answer_after [Deliver toy_delivery; GetSource 0; SetWidth 0 7; WriteArray 0 0 99; GetSource 0] (ReadArray 0) = Bytes [99; 2; 3; 255]
  (* but not in a slice *)
  /\ answer_after [Deliver toy_delivery; SliceArray 0; WriteArray 0 0 99] (ReadArray 2) = Bytes [1; 2; 3; 255].
Proof. repeat split; vm_compute; congruence. Qed.

Print Assumptions C73_fields_of_models_persist.
Print Assumptions C73_the_format_of_a_process_persists.
Print Assumptions C73_a_model_given_away_is_gone.
Print Assumptions C73_models_of_a_process_share_the_array_only.
Print Assumptions C73_a_slice_is_private.
Print Assumptions C73_the_page_gets_what_the_library_computed.
