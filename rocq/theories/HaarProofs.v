(** The matrix transform of Haar.v in terms of index functions, for any arithmetic. *)
From Verif Require Import Outcome Floats Bits ListFacts Matrix MatrixFacts Haar.
Open Scope nat_scope.

Section Generic.
Context {F : Type} (O : FOps F).
Let c := f_sqrt1_2 O.
Let z := f_of_Z O 0.

Definition plus2 (a b : F) : F := f_add O (f_mul O c a) (f_mul O c b).
Definition minus2 (a b : F) : F := f_sub O (f_mul O c a) (f_mul O c b).

(** One 1-D step on a sequence of even length n. *)
Definition step (bw : bool) (n : nat) (f : nat -> F) (j : nat) : F :=
  if bw then
    (if Nat.even j then plus2 (f (Nat.div2 j)) (f (Nat.div2 j + Nat.div2 n))
     else minus2 (f (Nat.div2 j)) (f (Nat.div2 j + Nat.div2 n)))
  else
    (if j <? Nat.div2 n then plus2 (f (2 * j)) (f (2 * j + 1))
     else minus2 (f (2 * (j - Nat.div2 n))) (f (2 * (j - Nat.div2 n) + 1))).

Lemma haar_pairs_spec : forall l k d, length (haar_pairs O l) = Nat.div2 (length l) /\
  (2 * k + 1 < length l -> nth k (haar_pairs O l) (d, d) =
     (plus2 (nth (2 * k) l d) (nth (2 * k + 1) l d), minus2 (nth (2 * k) l d) (nth (2 * k + 1) l d))).
Proof.
  intros l. remember (length l) as n eqn:En. revert l En. induction n as [n IH] using lt_wf_ind. intros l En k d.
  destruct l as [|a [|b t]]; cbn [length] in *.
  - subst. split; [reflexivity|intros; lia].
  - subst. split; [reflexivity|intros; lia].
  - subst. cbn [haar_pairs Nat.div2 length]. split.
    + f_equal. apply (IH (length t) ltac:(lia) t eq_refl 0 a).
    + intros Hk. destruct k as [|k]; [reflexivity|].
      replace (2 * S k) with (S (S (2 * k))) by lia. cbn [nth]. replace (S (S (2 * k)) + 1) with (S (S (2 * k + 1))) by lia. cbn [nth].
      apply (IH (length t) ltac:(lia) t eq_refl k d). lia.
Qed.

Lemma even_half n : n mod 2 = 0 -> n = 2 * Nat.div2 n.
Proof. intros H. rewrite Nat.div2_div. pose proof (Nat.div_mod n 2). lia. Qed.

Lemma forward_step_spec l d j : length l mod 2 = 0 ->
  length (forward_step O l) = length l /\
  (j < length l -> nth j (forward_step O l) d = step false (length l) (fun k => nth k l d) j).
Proof.
  intros Hev. apply even_half in Hev. set (h := Nat.div2 (length l)) in *.
  assert (Hp : length (haar_pairs O l) = h) by (apply (haar_pairs_spec l 0 d)).
  unfold forward_step. split.
  - rewrite app_length, !map_length, Hp. lia.
  - intros Hj. unfold step. fold h.
    destruct (Nat.ltb_spec j h) as [Hlt|Hge].
    + rewrite app_nth1 by (rewrite map_length, Hp; exact Hlt).
      change d with (fst (d, d)). rewrite map_nth. cbn [fst].
      rewrite (proj2 (haar_pairs_spec l j d)) by lia. reflexivity.
    + rewrite app_nth2; rewrite map_length, Hp; [|exact Hge].
      change d with (snd (d, d)). rewrite map_nth. cbn [snd].
      rewrite (proj2 (haar_pairs_spec l (j - h) d)) by lia. reflexivity.
Qed.

Lemma flat_map_pairs (f g : F * F -> F) : forall l j d,
  length (flat_map (fun p => [f p; g p]) l) = 2 * length l /\
  (j < 2 * length l -> nth j (flat_map (fun p => [f p; g p]) l) d =
     (if Nat.even j then f else g) (nth (Nat.div2 j) l (d, d))).
Proof.
  induction l as [|p t IH]; intros j d; cbn [length flat_map app].
  - split; [reflexivity|intros; lia].
  - split; [destruct (IH 0 d) as (-> & _); lia|]. intros Hj. destruct j as [|[|j]]; [reflexivity|reflexivity|].
    cbn [nth Nat.even Nat.div2]. apply IH. lia.
Qed.

Lemma nth_combine_l {A} (u v : list A) k d : k < length u -> length u = length v -> nth k (combine u v) (d, d) = (nth k u d, nth k v d).
Proof. intros _ H. apply combine_nth. exact H. Qed.

Lemma nth_firstn {A} (l : list A) k i d : i < k -> nth i (firstn k l) d = nth i l d.
Proof. revert k l; induction i as [|i IH]; intros [|k] [|x t] H; try lia; try reflexivity. cbn [firstn nth]. apply IH. lia. Qed.
Lemma nth_skipn {A} (l : list A) k i d : nth i (skipn k l) d = nth (k + i) l d.
Proof. revert l; induction k as [|k IH]; intros [|x t]; try reflexivity; [destruct i; reflexivity|]. cbn [skipn plus nth]. apply IH. Qed.

Lemma inverse_step_spec l d j : length l mod 2 = 0 ->
  length (inverse_step O l) = length l /\
  (j < length l -> nth j (inverse_step O l) d = step true (length l) (fun k => nth k l d) j).
Proof.
  intros Hev. apply even_half in Hev. set (h := Nat.div2 (length l)) in *.
  unfold inverse_step. fold h.
  assert (Hl1 : length (firstn h l) = h) by (rewrite firstn_length; lia).
  assert (Hl2 : length (skipn h l) = h) by (rewrite skipn_length; lia).
  assert (Hc : length (combine (firstn h l) (skipn h l)) = h) by (rewrite combine_length; lia).
  rewrite (flat_map_ext _ (fun p => [plus2 (fst p) (snd p); minus2 (fst p) (snd p)])) by (intros (x, y); reflexivity).
  destruct (flat_map_pairs (fun p => plus2 (fst p) (snd p)) (fun p => minus2 (fst p) (snd p)) (combine (firstn h l) (skipn h l)) j d) as (L & N).
  split; [rewrite L, Hc; lia|]. intros Hj. rewrite N by (rewrite Hc; lia).
  assert (Hd : Nat.div2 j < h) by (rewrite Nat.div2_div; apply Nat.div_lt_upper_bound; lia).
  rewrite combine_nth by congruence. rewrite nth_firstn, nth_skipn by exact Hd. unfold step. fold h.
  rewrite (Nat.add_comm h). destruct (Nat.even j); reflexivity.
Qed.

Lemma dwt_1d_spec l bw d : length l mod 2 = 0 ->
  exists l', dwt_1d O l 1 bw = Ok l' /\ length l' = length l /\
    forall j, j < length l -> nth j l' d = step bw (length l) (fun k => nth k l d) j.
Proof.
  intros Hev. unfold dwt_1d. change (2 ^ 1) with 2. rewrite Hev. cbn [Nat.eqb]. destruct bw; cbn [forward_levels inverse_levels].
  - rewrite firstn_skipn. eexists. split; [reflexivity|].
    split; [apply (inverse_step_spec l d 0 Hev)|]. intros j Hj. now apply (inverse_step_spec l d j Hev).
  - rewrite firstn_skipn. eexists. split; [reflexivity|].
    split; [apply (forward_step_spec l d 0 Hev)|]. intros j Hj. now apply (forward_step_spec l d j Hev).
Qed.

(** ** matrices as index functions *)
Definition get (m : array2 F) (i j : nat) : F := match cell m i j with Some v => v | None => z end.

Lemma get_nth m i j : get m i j = nth j (nth i (rows m) []) z.
Proof.
  unfold get, cell. destruct (nth_error (rows m) i) as [r|] eqn:E.
  - rewrite (nth_error_nth (rows m) i [] E). destruct (nth_error r j) as [v|] eqn:E2.
    + symmetry. apply (nth_error_nth r j z E2).
    + apply nth_error_None in E2. symmetry. apply nth_overflow. exact E2.
  - apply nth_error_None in E. rewrite (nth_overflow (rows m) [] E). destruct j; reflexivity.
Qed.

Lemma cell_get m i j : wf m -> i < dim0 m -> j < dim1 m -> cell m i j = Some (get m i j).
Proof. intros Hwf Hi Hj. unfold get. destruct (cell_bounds m i j Hwf Hi Hj) as (v & ->). reflexivity. Qed.

Lemma get_ext m m' : wf m -> wf m' -> dim0 m = dim0 m' -> dim1 m = dim1 m' ->
  (forall i j, i < dim0 m -> j < dim1 m -> get m i j = get m' i j) -> m = m'.
Proof.
  intros Hwf Hwf' E0 E1 H. apply array2_ext; try assumption. intros i j Hi Hj.
  rewrite !cell_get by (try assumption; lia). f_equal. now apply H.
Qed.

Lemma nth_upd {A} (l : list A) i x k d : nth k (upd l i x) d = if (Nat.eqb i k && (k <? length l)) then x else nth k l d.
Proof.
  revert i k; induction l as [|a t IH]; intros i k; [destruct k; cbn; now rewrite andb_false_r|].
  destruct i as [|i], k as [|k]; cbn [upd nth length Nat.eqb andb]; try reflexivity.
  rewrite IH. reflexivity.
Qed.

Lemma row_length (m : array2 F) i : wf m -> i < dim0 m -> length (nth i (rows m) []) = dim1 m.
Proof. intros (Hl & Hr) Hi. rewrite Forall_forall in Hr. apply Hr, nth_In. lia. Qed.

(** assign_row *)
Lemma assign_row_spec (m : array2 F) h i v : wf m -> i < dim0 m -> h <= dim1 m -> length v = h ->
  wf (assign_row m h i v) /\
  forall i' j', get (assign_row m h i v) i' j' = if (Nat.eqb i i') && (j' <? h) then nth j' v z else get m i' j'.
Proof.
  intros Hwf Hi Hh Hv. pose proof (row_length m i Hwf Hi) as Hrl. destruct Hwf as (Hl & Hr). split.
  - split; cbn [assign_row rows dim0 dim1]; [now rewrite upd_length|].
    apply Forall_forall. intros r Hin. apply In_nth_error in Hin as (k & Hk). rewrite nth_error_upd in Hk.
    rewrite Forall_forall in Hr. destruct (Nat.eqb i k).
    + destruct (nth_error (rows m) k); [|discriminate].
      assert (E : r = v ++ skipn h (nth i (rows m) [])) by congruence. subst r. rewrite app_length, skipn_length. lia.
    + apply Hr. eapply nth_error_In; exact Hk.
  - intros i' j'. rewrite !get_nth. cbn [assign_row rows]. rewrite nth_upd.
    destruct (Nat.eqb_spec i i') as [<-|N]; cbn [andb]; [|reflexivity].
    rewrite (proj2 (Nat.ltb_lt i (length (rows m)))) by lia.
    destruct (Nat.ltb_spec j' h) as [Hlt|Hge].
    + rewrite app_nth1 by lia. reflexivity.
    + rewrite app_nth2 by lia. rewrite nth_skipn. f_equal. lia.
Qed.

Lemma nth_combine_upd : forall (rs : list (list F)) (v : list F) j i, length rs = length v -> i < length rs ->
  nth i (map (fun p => upd (fst p) j (snd p)) (combine rs v)) [] = upd (nth i rs []) j (nth i v z).
Proof.
  induction rs as [|r t IH]; intros [|x v] j i Hl Hi; cbn [length] in *; try lia; try discriminate Hl.
  destruct i as [|i]; [reflexivity|]. cbn [combine map nth]. apply IH; lia.
Qed.

Lemma assign_col_spec (m : array2 F) w j v : wf m -> w <= dim0 m -> j < dim1 m -> length v = w ->
  wf (assign_col m w j v) /\
  forall i' j', get (assign_col m w j v) i' j' = if (i' <? w) && (Nat.eqb j j') then nth i' v z else get m i' j'.
Proof.
  intros Hwf Hw Hj Hv. destruct Hwf as (Hl & Hr).
  assert (Hlf : length (firstn w (rows m)) = w) by (rewrite firstn_length; lia). split.
  - split; cbn [assign_col rows dim0 dim1].
    + rewrite app_length, map_length, combine_length, skipn_length. lia.
    + apply Forall_app. split.
      * apply Forall_forall. intros r Hin. apply in_map_iff in Hin as ((r', x) & <- & Hin). apply in_combine_l in Hin.
        cbn [fst snd]. rewrite upd_length. rewrite Forall_forall in Hr. apply Hr. rewrite <- (firstn_skipn w). apply in_or_app. auto.
      * apply Forall_forall. intros r Hin. rewrite Forall_forall in Hr. apply Hr. rewrite <- (firstn_skipn w (rows m)). apply in_or_app. auto.
  - intros i' j'. rewrite !get_nth. cbn [assign_col rows].
    assert (Hlm : length (map (fun p => upd (fst p) j (snd p)) (combine (firstn w (rows m)) v)) = w).
    { rewrite map_length, combine_length. lia. }
    destruct (Nat.ltb_spec i' w) as [Hlt|Hge]; cbn [andb].
    + rewrite app_nth1 by lia. rewrite nth_combine_upd by lia. rewrite nth_upd, nth_firstn by exact Hlt.
      assert (Hrl : length (nth i' (rows m) []) = dim1 m) by (apply row_length; [split; assumption|lia]).
      rewrite Hrl. destruct (Nat.eqb_spec j j') as [<-|N]; cbn [andb]; [|reflexivity].
      rewrite (proj2 (Nat.ltb_lt _ _) Hj). reflexivity.
    + rewrite app_nth2 by lia. rewrite Hlm, nth_skipn. f_equal. f_equal. lia.
Qed.

(** ** passes *)
Definition rows_pass (bw : bool) (w h : nat) (M : nat -> nat -> F) (i j : nat) : F :=
  if (i <? w) && (j <? h) then step bw h (M i) j else M i j.
Definition cols_pass (bw : bool) (w h : nat) (M : nat -> nat -> F) (i j : nat) : F :=
  if (i <? w) && (j <? h) then step bw w (fun k => M k j) i else M i j.

Lemma div2_lt j n : j < n -> n mod 2 = 0 -> Nat.div2 j < Nat.div2 n.
Proof. intros H He. apply even_half in He. rewrite Nat.div2_div. apply Nat.div_lt_upper_bound; lia. Qed.

Lemma step_ext bw n f g j : n mod 2 = 0 -> j < n -> (forall k, k < n -> f k = g k) -> step bw n f j = step bw n g j.
Proof.
  intros Hev Hj H. pose proof (even_half n Hev) as E. unfold step. destruct bw.
  - pose proof (div2_lt j n Hj Hev). rewrite !H by lia. reflexivity.
  - destruct (Nat.ltb_spec j (Nat.div2 n)); rewrite !H by lia; reflexivity.
Qed.

Lemma process_rows_ok bw w h m : wf m -> w <= dim0 m -> h <= dim1 m -> h mod 2 = 0 ->
  exists m', process_rows O bw w h m = Ok m' /\ wf m' /\ dim0 m' = dim0 m /\ dim1 m' = dim1 m /\
    forall i j, get m' i j = rows_pass bw w h (get m) i j.
Proof.
  intros Hwf Hw Hh Hev. unfold process_rows.
  assert (G : forall len s m, wf m -> s + len <= dim0 m -> h <= dim1 m ->
    exists m', foldM (fun m i => v <- dwt_1d O (view_row m h i) 1 bw ;; Ok (assign_row m h i v)) (seq s len) m = Ok m'
      /\ wf m' /\ dim0 m' = dim0 m /\ dim1 m' = dim1 m /\
      forall i j, get m' i j = if (s <=? i) && (i <? s + len) && (j <? h) then step bw h (get m i) j else get m i j).
  { clear m Hwf Hw Hh. induction len as [|len IH]; intros s m Hwf Hs Hh; cbn [seq foldM].
    - exists m. split; [reflexivity|]. split; [exact Hwf|]. split; [reflexivity|]. split; [reflexivity|]. intros i j.
      destruct (Nat.leb_spec s i), (Nat.ltb_spec i (s + 0)); try reflexivity. lia.
    - assert (Hvl : length (view_row m h s) = h) by (unfold view_row; rewrite firstn_length, row_length by (try assumption; lia); lia).
      destruct (dwt_1d_spec (view_row m h s) bw z) as (v & Ev & Lv & Nv); [rewrite Hvl; exact Hev|].
      rewrite Ev. cbn [bind]. rewrite Hvl in Lv, Nv.
      destruct (assign_row_spec m h s v Hwf ltac:(lia) Hh Lv) as (Hwf1 & G1).
      destruct (IH (S s) (assign_row m h s v) Hwf1 ltac:(cbn [assign_row dim0]; lia) ltac:(cbn [assign_row dim1]; lia)) as (m' & E & Hwf' & E0 & E1 & C).
      exists m'. split; [exact E|]. split; [exact Hwf'|]. split; [exact E0|]. split; [exact E1|].
      intros i j. rewrite C.
      destruct (Nat.ltb_spec j h) as [Hj|Hj]; rewrite ?andb_false_r, ?andb_true_r.
      + destruct (Nat.eq_dec i s) as [->|N].
        * rewrite (proj2 (Nat.leb_gt (S s) s)), (proj2 (Nat.leb_le s s)), (proj2 (Nat.ltb_lt s (s + S len))) by lia. cbn [andb].
          rewrite G1, Nat.eqb_refl, (proj2 (Nat.ltb_lt _ _) Hj). cbn [andb]. rewrite Nv by exact Hj.
          apply step_ext; [exact Hev|exact Hj|]. intros k Hk. unfold view_row. rewrite nth_firstn by exact Hk. symmetry. apply get_nth.
        * replace (S s <=? i) with (s <=? i) by (destruct (Nat.leb_spec s i), (Nat.leb_spec (S s) i); lia || reflexivity).
          replace (S s + len) with (s + S len) by lia.
          destruct ((s <=? i) && (i <? s + S len)).
          -- apply step_ext; [exact Hev|exact Hj|]. intros k Hk. rewrite G1.
             rewrite (proj2 (Nat.eqb_neq s i)) by lia. reflexivity.
          -- rewrite G1, (proj2 (Nat.eqb_neq s i)) by lia. reflexivity.
      + rewrite G1. rewrite (proj2 (Nat.ltb_ge j h)) by exact Hj. rewrite andb_false_r. reflexivity. }
  destruct (G w 0 m Hwf Hw Hh) as (m' & E & Hwf' & E0 & E1 & C).
  exists m'. split; [exact E|]. split; [exact Hwf'|]. split; [exact E0|]. split; [exact E1|].
  intros i j. rewrite C. reflexivity.
Qed.

Lemma view_col_nth m w j i : w <= length (rows m) -> i < w -> nth i (view_col z m w j) z = get m i j.
Proof.
  intros Hw Hi. unfold view_col. rewrite get_nth.
  rewrite (nth_indep _ z ((fun r => nth j r z) [])) by (rewrite map_length, firstn_length; lia).
  rewrite (map_nth (fun r => nth j r z)), nth_firstn by exact Hi. reflexivity.
Qed.

Lemma process_columns_ok bw w h m : wf m -> w <= dim0 m -> h <= dim1 m -> w mod 2 = 0 ->
  exists m', process_columns O bw w h m = Ok m' /\ wf m' /\ dim0 m' = dim0 m /\ dim1 m' = dim1 m /\
    forall i j, get m' i j = cols_pass bw w h (get m) i j.
Proof.
  intros Hwf Hw Hh Hev. unfold process_columns. fold z.
  assert (G : forall len s m, wf m -> w <= dim0 m -> s + len <= dim1 m ->
    exists m', foldM (fun m j => v <- dwt_1d O (view_col z m w j) 1 bw ;; Ok (assign_col m w j v)) (seq s len) m = Ok m'
      /\ wf m' /\ dim0 m' = dim0 m /\ dim1 m' = dim1 m /\
      forall i j, get m' i j = if (i <? w) && ((s <=? j) && (j <? s + len)) then step bw w (fun k => get m k j) i else get m i j).
  { clear m Hwf Hw Hh. induction len as [|len IH]; intros s m Hwf Hw Hs; cbn [seq foldM].
    - exists m. split; [reflexivity|]. split; [exact Hwf|]. split; [reflexivity|]. split; [reflexivity|]. intros i j.
      destruct (Nat.leb_spec s j), (Nat.ltb_spec j (s + 0)); rewrite ?andb_false_r; try reflexivity. lia.
    - assert (Hlr : length (rows m) = dim0 m) by apply Hwf.
      assert (Hvl : length (view_col z m w s) = w) by (unfold view_col; rewrite map_length, firstn_length; lia).
      destruct (dwt_1d_spec (view_col z m w s) bw z) as (v & Ev & Lv & Nv); [rewrite Hvl; exact Hev|].
      rewrite Ev. cbn [bind]. rewrite Hvl in Lv, Nv.
      destruct (assign_col_spec m w s v Hwf Hw ltac:(lia) Lv) as (Hwf1 & G1).
      destruct (IH (S s) (assign_col m w s v) Hwf1 ltac:(cbn [assign_col dim0]; lia) ltac:(cbn [assign_col dim1]; lia)) as (m' & E & Hwf' & E0 & E1 & C).
      exists m'. split; [exact E|]. split; [exact Hwf'|]. split; [exact E0|]. split; [exact E1|].
      intros i j. rewrite C.
      destruct (Nat.ltb_spec i w) as [Hi|Hi]; cbn [andb].
      + destruct (Nat.eq_dec j s) as [->|N].
        * rewrite (proj2 (Nat.leb_gt (S s) s)), (proj2 (Nat.leb_le s s)), (proj2 (Nat.ltb_lt s (s + S len))) by lia. cbn [andb].
          rewrite G1, Nat.eqb_refl, (proj2 (Nat.ltb_lt _ _) Hi). cbn [andb]. rewrite Nv by exact Hi.
          apply step_ext; [exact Hev|exact Hi|]. intros k Hk. apply view_col_nth; lia.
        * replace (S s <=? j) with (s <=? j) by (destruct (Nat.leb_spec s j), (Nat.leb_spec (S s) j); lia || reflexivity).
          replace (S s + len) with (s + S len) by lia.
          destruct ((s <=? j) && (j <? s + S len)).
          -- apply step_ext; [exact Hev|exact Hi|]. intros k Hk. rewrite G1.
             rewrite (proj2 (Nat.eqb_neq s j)) by lia. rewrite andb_false_r. reflexivity.
          -- rewrite G1, (proj2 (Nat.eqb_neq s j)) by lia. rewrite andb_false_r. reflexivity.
      + rewrite G1. rewrite (proj2 (Nat.ltb_ge i w)) by exact Hi. reflexivity. }
  destruct (G h 0 m Hwf Hw Hh) as (m' & E & Hwf' & E0 & E1 & C).
  exists m'. split; [exact E|]. split; [exact Hwf'|]. split; [exact E0|]. split; [exact E1|].
  intros i j. rewrite C. reflexivity.
Qed.

(** One iteration and the whole transform on index functions. *)
Definition iteration (bw : bool) (d0 d1 : nat) (M : nat -> nat -> F) (it : nat) : nat -> nat -> F :=
  cols_pass bw (d0 / 2 ^ it) (d1 / 2 ^ it) (rows_pass bw (d0 / 2 ^ it) (d1 / 2 ^ it) M).
Definition transform (bw : bool) (d0 d1 level : nat) (M : nat -> nat -> F) : nat -> nat -> F :=
  fold_left (iteration bw d0 d1) (if bw then rev (seq 0 level) else seq 0 level) M.

(** 2^level divides both sides. *)
Definition divisible (d0 d1 level : nat) : Prop := d0 mod 2 ^ level = 0 /\ d1 mod 2 ^ level = 0.

Lemma pow2_pos k : 0 < 2 ^ k. Proof. induction k; cbn; lia. Qed.

Lemma half_even d level it : d mod 2 ^ level = 0 -> it < level -> (d / 2 ^ it) mod 2 = 0 /\ d / 2 ^ it = 2 * (d / 2 ^ S it).
Proof.
  intros Hd Hi. apply Nat.mod_divides in Hd as (k & ->); [|pose proof (pow2_pos level); lia].
  replace level with (it + (S (level - S it))) by lia. rewrite Nat.pow_add_r, Nat.pow_succ_r'.
  pose proof (pow2_pos it) as Hp.
  assert (E1 : 2 ^ it * (2 * 2 ^ (level - S it)) * k / 2 ^ it = 2 * (2 ^ (level - S it) * k)).
  { replace (2 ^ it * (2 * 2 ^ (level - S it)) * k) with (2 * (2 ^ (level - S it) * k) * 2 ^ it) by ring. apply Nat.div_mul. lia. }
  rewrite E1. split.
  - rewrite Nat.mul_comm. apply Nat.mod_mul. lia.
  - f_equal. rewrite Nat.pow_succ_r'.
    replace (2 ^ it * (2 * 2 ^ (level - S it)) * k) with (2 ^ (level - S it) * k * (2 * 2 ^ it)) by ring. symmetry. apply Nat.div_mul. lia.
Qed.

Lemma div_pow_le d it : d / 2 ^ it <= d.
Proof. pose proof (pow2_pos it). apply Nat.div_le_upper_bound; [lia|]. nia. Qed.

Lemma pass_ext_rows bw w h M M' : h mod 2 = 0 -> (forall i j, M i j = M' i j) -> forall i j, rows_pass bw w h M i j = rows_pass bw w h M' i j.
Proof.
  intros He H i j. unfold rows_pass. destruct (Nat.ltb_spec i w), (Nat.ltb_spec j h); cbn [andb]; auto. apply step_ext; auto.
Qed.
Lemma pass_ext_cols bw w h M M' : w mod 2 = 0 -> (forall i j, M i j = M' i j) -> forall i j, cols_pass bw w h M i j = cols_pass bw w h M' i j.
Proof.
  intros He H i j. unfold cols_pass. destruct (Nat.ltb_spec i w), (Nat.ltb_spec j h); cbn [andb]; auto. apply step_ext; auto.
Qed.

Lemma iteration_ok bw level it m : wf m -> divisible (dim0 m) (dim1 m) level -> it < level -> level <= 31 ->
  exists m', dwt_2d_iteration O bw m it = Ok m' /\ wf m' /\ dim0 m' = dim0 m /\ dim1 m' = dim1 m /\
    forall i j, get m' i j = iteration bw (dim0 m) (dim1 m) (get m) it i j.
Proof.
  intros Hwf (D0 & D1) Hit Hlev. unfold dwt_2d_iteration.
  destruct (Nat.leb_spec 31 it) as [Hx|_]; [lia|].
  destruct (half_even _ _ it D0 Hit) as (E0 & _). destruct (half_even _ _ it D1 Hit) as (E1 & _).
  destruct (process_rows_ok bw (dim0 m / 2 ^ it) (dim1 m / 2 ^ it) m Hwf (div_pow_le _ _) (div_pow_le _ _) E1) as (m1 & P1 & W1 & A0 & A1 & C1).
  rewrite P1. cbn [bind].
  destruct (process_columns_ok bw (dim0 m / 2 ^ it) (dim1 m / 2 ^ it) m1 W1) as (m2 & P2 & W2 & B0 & B1 & C2).
  { rewrite A0. apply div_pow_le. } { rewrite A1. apply div_pow_le. } { exact E0. }
  exists m2. split; [exact P2|]. split; [exact W2|]. split; [congruence|]. split; [congruence|].
  intros i j. rewrite C2. unfold iteration. now apply pass_ext_cols.
Qed.

Lemma iteration_ext bw d0 d1 level it M M' : divisible d0 d1 level -> it < level -> (forall i j, M i j = M' i j) ->
  forall i j, iteration bw d0 d1 M it i j = iteration bw d0 d1 M' it i j.
Proof.
  intros (D0 & D1) Hit H. unfold iteration. apply pass_ext_cols; [apply (half_even _ _ it D0 Hit)|].
  apply pass_ext_rows; [apply (half_even _ _ it D1 Hit)|exact H].
Qed.

Lemma fold_ext bw d0 d1 level its : forall M M', divisible d0 d1 level -> Forall (fun it => it < level) its -> (forall i j, M i j = M' i j) ->
  forall i j, fold_left (iteration bw d0 d1) its M i j = fold_left (iteration bw d0 d1) its M' i j.
Proof.
  induction its as [|it t IH]; intros M M' D H E; cbn [fold_left]; [exact E|].
  inversion H; subst. apply IH; try assumption. apply (iteration_ext bw d0 d1 level); assumption.
Qed.

Lemma fold_ok bw level its : forall m, wf m -> divisible (dim0 m) (dim1 m) level -> Forall (fun it => it < level) its -> level <= 31 ->
  exists m', foldM (dwt_2d_iteration O bw) its m = Ok m' /\ wf m' /\ dim0 m' = dim0 m /\ dim1 m' = dim1 m /\
    forall i j, get m' i j = fold_left (iteration bw (dim0 m) (dim1 m)) its (get m) i j.
Proof.
  induction its as [|it t IH]; intros m Hwf D H Hlev; cbn [foldM fold_left].
  - exists m. auto.
  - inversion H; subst. destruct (iteration_ok bw level it m Hwf D H2 Hlev) as (m1 & E & W1 & A0 & A1 & C1).
    rewrite E. cbn [bind]. destruct (IH m1 W1) as (m2 & E2 & W2 & B0 & B1 & C2); [rewrite A0, A1; exact D|assumption|exact Hlev|].
    exists m2. split; [exact E2|]. split; [exact W2|]. split; [congruence|]. split; [congruence|].
    intros i j. rewrite C2, A0, A1. apply (fold_ext bw _ _ level); assumption.
Qed.

Lemma its_bound (bw : bool) level : Forall (fun it => it < level) (if bw then rev (seq 0 level) else seq 0 level).
Proof.
  apply Forall_forall. intros it H. destruct bw; [apply in_rev in H|]; apply in_seq in H; lia.
Qed.

Lemma dwt_2d_ok bw level m : wf m -> divisible (dim0 m) (dim1 m) level -> 1 <= level <= 31 ->
  exists m', dwt_2d O m level bw = Ok m' /\ wf m' /\ dim0 m' = dim0 m /\ dim1 m' = dim1 m /\
    forall i j, get m' i j = transform bw (dim0 m) (dim1 m) level (get m) i j.
Proof.
  intros Hwf D Hl. unfold dwt_2d. destruct level as [|k]; [lia|].
  apply (fold_ok bw (S k)); [exact Hwf|exact D|apply its_bound|lia].
Qed.

Lemma transform_ext bw d0 d1 level M M' : divisible d0 d1 level -> (forall i j, M i j = M' i j) ->
  forall i j, transform bw d0 d1 level M i j = transform bw d0 d1 level M' i j.
Proof. intros D H. unfold transform. apply (fold_ext bw d0 d1 level); [exact D|apply its_bound|exact H]. Qed.
End Generic.
