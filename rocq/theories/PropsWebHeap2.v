(** Property C73, continued: the contents of the arrays, freed processes, and the watermarked half of a process
    (lib/sia/rust/web/src/image_model.rs, watermarking_process.rs). *)
From Verif Require Import Outcome Bits Web WebHeap PropsWebHeap.
Open Scope Z_scope.

(** *** C73: an array always holds what was last written to it *)
Lemma array_step h o a l : nth_error (arrays h) a = Some l ->
  exists l', nth_error (arrays (next h o)) a = Some l' /\ length l' = length l
    /\ forall i, ((forall v, o <> WriteArray a i v) -> nth_error l' i = nth_error l i) /\ (forall v, o = WriteArray a i v -> (i < length l)%nat -> nth_error l' i = Some (v mod 256)).
Proof.
  intros Hl. assert (Hlt : (a < length (arrays h))%nat) by (apply nth_error_Some; congruence).
  set (Q := fun h' : heap => exists l', nth_error (arrays h') a = Some l' /\ length l' = length l
    /\ forall i, ((forall v, o <> WriteArray a i v) -> nth_error l' i = nth_error l i) /\ (forall v, o = WriteArray a i v -> (i < length l)%nat -> nth_error l' i = Some (v mod 256))).
  change (Q (next h o)).
  assert (Same : (forall i v, o <> WriteArray a i v) -> forall h', nth_error (arrays h') a = Some l -> Q h').
  { intros Hno h' E. exists l. split; [exact E|]. split; [reflexivity|]. intros i. split; [reflexivity|]. intros v Ho. now apply Hno in Ho. }
  unfold next. destruct o as [| a0 i0 v0 | | | | | | | | | | | | | | | | | | |]; cbn [call]; cases_of_call;
    unfold add_array, add_process, add_model, put_model, put_process, consume, set_arrays; cbn [arrays set_models set_processes fst snd];
    try (apply Same; [discriminate|cbn [arrays set_models set_processes]; first [exact Hl | rewrite nth_error_app1 by exact Hlt; exact Hl]]).
  - destruct (Nat.eq_dec a0 a) as [ -> |Hne].
    + assert (l0 = l) by congruence. subst l0. exists (update l i0 (byte_of v0)). cbn [arrays]. split; [now apply update_same|]. split; [apply update_length|].
      intros i. split.
      * intros Hno. apply update_other. intros ->. now apply (Hno v0).
      * intros v E Hi. assert (i = i0 /\ v = v0) as (-> & ->) by (split; congruence). now apply update_same.
    + apply Same; [congruence|]. cbn [arrays]. now rewrite update_other.
  - apply Same; [congruence|exact Hl].
Qed.
Theorem C73_an_array_holds_what_was_last_written : forall before a content, answer_after before (ReadArray a) = Bytes content ->
  forall later, exists now, answer_after (before ++ later) (ReadArray a) = Bytes now /\ length now = length content
    /\ (forall i, Forall (fun o => forall v, o <> WriteArray a i v) later -> nth_error now i = nth_error content i)
    /\ (forall i v earlier rest, later = (earlier ++ WriteArray a i v :: rest)%list -> Forall (fun o => forall v', o <> WriteArray a i v') rest ->
        (i < length content)%nat -> nth_error now i = Some (v mod 256)).
Proof.
  intros before a content H later. unfold answer_after in H. cbn [call] in H. destruct (nth_error (arrays (after before)) a) as [l|] eqn:El; [|discriminate].
  cbn [snd] in H. assert (l = content) by congruence. subst l. clear H.
  unfold answer_after. cbn [call]. rewrite after_app. revert content El. generalize (after before). induction later as [|o t IH]; intros h content El; cbn [nexts].
  - exists content. rewrite El. split; [reflexivity|]. split; [reflexivity|]. split; [reflexivity|]. intros i v [|? ?] rest E; discriminate E.
  - destruct (array_step h o a content El) as (l1 & E1 & L1 & W1). destruct (IH _ _ E1) as (now & En & Ln & K & W). exists now. split; [exact En|]. split; [congruence|]. split.
    + intros i Hi. inversion Hi as [|? ? Ho Ht]; subst. rewrite (K i Ht). now apply (proj1 (W1 i)).
    + intros i v [|o' earlier] rest E Hrest Hi.
      * cbn [app] in E. assert (o = WriteArray a i v /\ t = rest) as (-> & ->) by (split; congruence). rewrite (K i Hrest). now apply (proj2 (W1 i)).
      * cbn [app] in E. assert (o = o' /\ t = (earlier ++ WriteArray a i v :: rest)%list) as (-> & Et) by (split; congruence).
        apply (W i v earlier rest Et Hrest). lia.
Qed.

(** *** C73: a freed process is gone for good *)
Lemma dead_process_step h o p : (p < length (processes h))%nat -> live (processes h) p = None -> (p < length (processes (next h o)))%nat /\ live (processes (next h o)) p = None.
Proof.
  intros Hm Hd. set (Q := fun h' : heap => (p < length (processes h'))%nat /\ live (processes h') p = None). change (Q (next h o)).
  assert (Same : forall h', processes h' = processes h -> Q h') by (intros h' E; unfold Q; now rewrite E).
  assert (Add : forall h' y, processes h' = processes h ++ [y] -> Q h').
  { intros h' y E. unfold Q. rewrite E, app_length. split; [lia|]. unfold live in *. now rewrite nth_error_app1. }
  assert (Put : forall h' k y z, processes h' = update (processes h) k y -> live (processes h) k = Some z -> Q h').
  { intros h' k y z E Hk. unfold Q. rewrite E, update_length. split; [exact Hm|]. rewrite live_other; [exact Hd|]. intros ->. congruence. }
  unfold next. destruct o; cbn [call]; cases_of_call; try (apply Same; reflexivity); try (eapply Add; reflexivity); try (eapply Put; [reflexivity|eassumption]).
Qed.
Theorem C73_a_freed_process_is_gone : forall before p later, usable_process before p ->
  let os := (before ++ FreeProcess p :: later)%list in
  answer_after os (GetFormat p) = Throws /\ (forall f, answer_after os (SetFormat p f) = Throws) /\ answer_after os (GetSource p) = Throws /\ answer_after os (GetWatermarked p) = Throws
  /\ (forall m, answer_after os (SetSource p m) = Throws) /\ (forall m, answer_after os (SetWatermarked p m) = Throws) /\ answer_after os (FreeProcess p) = Throws.
Proof.
  intros before p later Hu os.
  assert (D : live (processes (after os)) p = None).
  { unfold os. rewrite after_app. cbn [nexts].
    assert (Hx : exists x, live (processes (after before)) p = Some x).
    { unfold usable_process, answer_after in Hu. cbn [call] in Hu. destruct (live (processes (after before)) p) as [x|] eqn:E; [eauto|]. exfalso. now apply Hu. }
    destruct Hx as (x & Hx).
    assert (H0 : (p < length (processes (next (after before) (FreeProcess p))))%nat /\ live (processes (next (after before) (FreeProcess p))) p = None).
    { unfold next. cbn [call]. rewrite Hx. cbn [fst processes set_processes]. rewrite update_length. split; [eapply live_lt; eassumption|apply live_none]. }
    destruct H0 as (H1 & H2). revert H1 H2. generalize (next (after before) (FreeProcess p)). clear.
    induction later as [|o t IH]; intros h H1 H2; cbn [nexts]; [exact H2|]. destruct (dead_process_step h o p H1 H2). now apply IH. }
  unfold answer_after. cbn [call]. rewrite D. cbn [snd]. repeat split; try reflexivity.
Qed.

(** *** C73: the watermarked picture of a process is shared in the same way as the source *)
Theorem C73_watermarked_models_share_the_array_only : forall before p m, answer_after before (GetWatermarked p) = Model m ->
  exists w ht a,
    let first := (before ++ [GetWatermarked p])%list in
    answer_after first (GetWidth m) = Number w /\ answer_after first (GetHeight m) = Number ht /\ answer_after first (GetData m) = Array a
    /\ ~ usable_model before m
    /\ forall later, Forall (fun o => o <> FreeProcess p /\ forall k, o <> SetWatermarked p k) later ->
       exists m', answer_after (first ++ later) (GetWatermarked p) = Model m'
         /\ let second := (first ++ later ++ [GetWatermarked p])%list in
            answer_after second (GetWidth m') = Number w /\ answer_after second (GetHeight m') = Number ht /\ answer_after second (GetData m') = Array a
            /\ ~ usable_model (first ++ later) m'.
Proof.
  intros before p m H. unfold answer_after in H. cbn [call] in H. destruct (live (processes (after before)) p) as [x|] eqn:Hx; [|discriminate]. cbn [snd] in H.
  assert (Em : m = length (models (after before))) by congruence. subst m.
  assert (Hf : after (before ++ [GetWatermarked p]) = add_model (after before) (p_watermarked x)) by (rewrite after_nil_snoc; unfold next; cbn [call]; now rewrite Hx).
  assert (Hd : forall os k, live (models (after os)) k = None -> ~ usable_model os k) by (intros os k E (y & Hy)%usable_live; congruence).
  assert (Hlen : forall (l : list (option model_object)), live l (length l) = None) by (intros l; unfold live; now rewrite (proj2 (nth_error_None l (length l)) (le_n _))).
  exists (m_width (p_watermarked x)), (m_height (p_watermarked x)), (m_data (p_watermarked x)). cbv zeta.
  unfold answer_after at 1 2 3. rewrite Hf. cbn [call]. unfold add_model. cbn [models set_models]. rewrite live_new. cbn [snd].
  repeat split; [apply Hd, Hlen|]. intros later Hl.
  assert (L1 : Forall (fun o => o <> FreeProcess p) later) by (eapply Forall_impl; [|exact Hl]; intros ? (? & ?); assumption).
  assert (L2 : Forall (fun o => forall f, o <> SetWatermarked p f) later) by (eapply Forall_impl; [|exact Hl]; intros ? (? & ?); assumption).
  destruct (processes_later (after (before ++ [GetWatermarked p])) later p x) as (y & Hy & _ & _ & B); [rewrite Hf; exact Hx|exact L1|]. specialize (B L2).
  rewrite <- after_app in Hy. set (mid := ((before ++ [GetWatermarked p]) ++ later)%list) in *.
  exists (length (models (after mid))). split; [unfold answer_after; cbn [call]; rewrite Hy; reflexivity|].
  assert (Hf2 : after ((before ++ [GetWatermarked p]) ++ later ++ [GetWatermarked p]) = add_model (after mid) (p_watermarked x)).
  { rewrite app_assoc. fold mid. rewrite after_nil_snoc. unfold next. cbn [call]. rewrite Hy. cbn [fst]. now rewrite B. }
  unfold answer_after at 1 2 3. rewrite Hf2. cbn [call]. unfold add_model. cbn [models set_models]. rewrite live_new. cbn [snd]. repeat split. apply Hd, Hlen.
Qed.

(** A picture put into a process is the one it hands out: its size and its array. *)
Theorem C73_a_process_hands_out_the_models_it_was_given : forall before f s t ws hs a_s wt ht a_t,
  s <> t -> answer_after before (GetWidth s) = Number ws -> answer_after before (GetHeight s) = Number hs -> answer_after before (GetData s) = Array a_s ->
  answer_after before (GetWidth t) = Number wt -> answer_after before (GetHeight t) = Number ht -> answer_after before (GetData t) = Array a_t ->
  exists p, answer_after before (NewProcess f s t) = Process p
  /\ forall later, Forall (fun o => o <> FreeProcess p /\ (forall g, o <> SetFormat p g) /\ (forall m, o <> SetSource p m) /\ (forall m, o <> SetWatermarked p m)) later ->
     let os := (before ++ NewProcess f s t :: later)%list in
     answer_after os (GetFormat p) = Text f
     /\ (exists m, answer_after os (GetSource p) = Model m /\ answer_after (os ++ [GetSource p]) (GetWidth m) = Number ws
          /\ answer_after (os ++ [GetSource p]) (GetHeight m) = Number hs /\ answer_after (os ++ [GetSource p]) (GetData m) = Array a_s)
     /\ (exists m, answer_after os (GetWatermarked p) = Model m /\ answer_after (os ++ [GetWatermarked p]) (GetWidth m) = Number wt
          /\ answer_after (os ++ [GetWatermarked p]) (GetHeight m) = Number ht /\ answer_after (os ++ [GetWatermarked p]) (GetData m) = Array a_t).
Proof.
  intros before f s t ws hs a_s wt ht a_t Hne A1 A2 A3 B1 B2 B3. unfold answer_after in A1, A2, A3, B1, B2, B3. cbn [call] in *.
  destruct (live (models (after before)) s) as [x|] eqn:Ex; [|discriminate]. destruct (live (models (after before)) t) as [y|] eqn:Ey; [|discriminate]. cbn [snd] in *.
  set (p := length (processes (after before))).
  assert (Ey' : live (models (consume (after before) s)) t = Some y) by (unfold consume; cbn [models set_models]; now rewrite live_other).
  assert (Eo : call (after before) (NewProcess f s t) = (add_process (consume (consume (after before) s) t) (mkProcessObject f x y), Process p)) by (cbn [call]; rewrite Ex, Ey'; reflexivity).
  exists p. split; [unfold answer_after; rewrite Eo; reflexivity|]. intros later Hl. set (os := (before ++ NewProcess f s t :: later)%list).
  destruct (processes_later (next (after before) (NewProcess f s t)) later p (mkProcessObject f x y)) as (z & Hz & Z1 & Z2 & Z3).
  { unfold next. rewrite Eo. cbn [fst]. unfold add_process. cbn [processes set_processes]. apply live_new. }
  { eapply Forall_impl; [|exact Hl]. cbv beta. tauto. }
  specialize (Z1 ltac:(eapply Forall_impl; [|exact Hl]; cbv beta; tauto)). specialize (Z2 ltac:(eapply Forall_impl; [|exact Hl]; cbv beta; tauto)). specialize (Z3 ltac:(eapply Forall_impl; [|exact Hl]; cbv beta; tauto)).
  cbn [p_format p_source p_watermarked] in Z1, Z2, Z3.
  assert (Hz' : live (processes (after os)) p = Some z) by (unfold os; rewrite after_app; exact Hz).
  split; [unfold answer_after; cbn [call]; rewrite Hz'; cbn [snd]; congruence|].
  split; exists (length (models (after os))); (split; [unfold answer_after; cbn [call]; rewrite Hz'; reflexivity|]).
  - assert (E : after (os ++ [GetSource p]) = add_model (after os) (p_source z)) by (rewrite after_nil_snoc; unfold next; cbn [call]; rewrite Hz'; reflexivity).
    unfold answer_after. rewrite E. cbn [call]. unfold add_model. cbn [models set_models]. rewrite live_new. cbn [snd]. rewrite Z2. auto.
  - assert (E : after (os ++ [GetWatermarked p]) = add_model (after os) (p_watermarked z)) by (rewrite after_nil_snoc; unfold next; cbn [call]; rewrite Hz'; reflexivity).
    unfold answer_after. rewrite E. cbn [call]. unfold add_model. cbn [models set_models]. rewrite live_new. cbn [snd]. rewrite Z3. auto.
Qed.

(** The setters: a model given to a process replaces the old one - size and array - and the other half stays as it was. *)
Theorem C73_setters_of_a_process : forall before p m ws hs a, usable_process before p ->
  answer_after before (GetWidth m) = Number ws -> answer_after before (GetHeight m) = Number hs -> answer_after before (GetData m) = Array a ->
  (forall later, Forall (fun o => o <> FreeProcess p /\ forall k, o <> SetSource p k) later ->
     let os := (before ++ SetSource p m :: later)%list in
     exists m', answer_after os (GetSource p) = Model m' /\ answer_after (os ++ [GetSource p]) (GetWidth m') = Number ws
       /\ answer_after (os ++ [GetSource p]) (GetHeight m') = Number hs /\ answer_after (os ++ [GetSource p]) (GetData m') = Array a)
  /\ (forall later, Forall (fun o => o <> FreeProcess p /\ forall k, o <> SetWatermarked p k) later ->
     let os := (before ++ SetWatermarked p m :: later)%list in
     exists m', answer_after os (GetWatermarked p) = Model m' /\ answer_after (os ++ [GetWatermarked p]) (GetWidth m') = Number ws
       /\ answer_after (os ++ [GetWatermarked p]) (GetHeight m') = Number hs /\ answer_after (os ++ [GetWatermarked p]) (GetData m') = Array a).
Proof.
  intros before p m ws hs a Hu A1 A2 A3. unfold answer_after in A1, A2, A3. cbn [call] in A1, A2, A3.
  destruct (live (models (after before)) m) as [y|] eqn:Ey; [|discriminate]. cbn [snd] in A1, A2, A3. apply usable_live_p in Hu as (x & Hx). split; intros later Hl os.
  - destruct (processes_later (next (after before) (SetSource p m)) later p (mkProcessObject (p_format x) y (p_watermarked x))) as (z & Hz & _ & Z2 & _).
    { unfold next. cbn [call]. rewrite Hx, Ey. cbn [fst]. unfold put_process. cbn [processes set_processes]. eapply live_put. unfold consume. cbn [processes set_models]. eassumption. }
    { eapply Forall_impl; [|exact Hl]. cbv beta. tauto. }
    specialize (Z2 ltac:(eapply Forall_impl; [|exact Hl]; cbv beta; tauto)). cbn [p_source] in Z2.
    assert (Hz' : live (processes (after os)) p = Some z) by (unfold os; rewrite after_app; exact Hz).
    exists (length (models (after os))). split; [unfold answer_after; cbn [call]; rewrite Hz'; reflexivity|].
    assert (E : after (os ++ [GetSource p]) = add_model (after os) (p_source z)) by (rewrite after_nil_snoc; unfold next; cbn [call]; rewrite Hz'; reflexivity).
    unfold answer_after. rewrite E. cbn [call]. unfold add_model. cbn [models set_models]. rewrite live_new. cbn [snd]. rewrite Z2. auto.
  - destruct (processes_later (next (after before) (SetWatermarked p m)) later p (mkProcessObject (p_format x) (p_source x) y)) as (z & Hz & _ & _ & Z3).
    { unfold next. cbn [call]. rewrite Hx, Ey. cbn [fst]. unfold put_process. cbn [processes set_processes]. eapply live_put. unfold consume. cbn [processes set_models]. eassumption. }
    { eapply Forall_impl; [|exact Hl]. cbv beta. tauto. }
    specialize (Z3 ltac:(eapply Forall_impl; [|exact Hl]; cbv beta; tauto)). cbn [p_watermarked] in Z3.
    assert (Hz' : live (processes (after os)) p = Some z) by (unfold os; rewrite after_app; exact Hz).
    exists (length (models (after os))). split; [unfold answer_after; cbn [call]; rewrite Hz'; reflexivity|].
    assert (E : after (os ++ [GetWatermarked p]) = add_model (after os) (p_watermarked z)) by (rewrite after_nil_snoc; unfold next; cbn [call]; rewrite Hz'; reflexivity).
    unfold answer_after. rewrite E. cbn [call]. unfold add_model. cbn [models set_models]. rewrite live_new. cbn [snd]. rewrite Z3. auto.
Qed.

(** ** Concrete cases *)
Example C73_arrays_instance :
  answer_after [NewArray [1; 2; 300]] (ReadArray 0) = Bytes [1; 2; 44]
  /\ answer_after [NewArray [1; 2; 3]; NewModel 1 1 0; WriteArray 0 1 7; WriteArray 0 1 264; WriteArray 0 9 5; GetData 0] (ReadArray 0) = Bytes [1; 8; 3]
  /\ usable_process [Deliver toy_delivery] 0 /\ answer_after [Deliver toy_delivery; FreeProcess 0] (GetSource 0) = Throws
  /\ answer_after [Deliver toy_delivery] (GetWatermarked 0) = Model 0
  /\ answer_after [NewArray [9]; NewArray [8]; NewModel 3 4 0; NewModel 5 6 1] (NewProcess [80] 0 1) = Process 0
  /\ answer_after [NewArray [9]; NewArray [8]; NewModel 3 4 0; NewModel 5 6 1; NewProcess [80] 0 1; GetSource 0] (GetHeight 2) = Number 4.
Proof. repeat split; vm_compute; congruence. Qed.

Print Assumptions C73_an_array_holds_what_was_last_written.
Print Assumptions C73_a_freed_process_is_gone.
Print Assumptions C73_watermarked_models_share_the_array_only.
Print Assumptions C73_a_process_hands_out_the_models_it_was_given.
Print Assumptions C73_setters_of_a_process.
