(** Properties C81 and C82: the helpers of lib/sia/rust/utils/src/lib.rs, on which the tests of every crate rest. *)
From Coq Require Import Reals Lra.
From Flocq Require Import Core BinarySingleNaN.
From Verif Require Import Outcome Floats FloatFacts ListFacts Matrix MatrixFacts Utils.
Open Scope R_scope.

(** ** Specification vocabulary *)
(** Two doubles the helpers let pass. *)
Definition accepted (expected actual : b64) : Prop := assert_approximately_equal expected actual = Passes.

Lemma DELTA_ok : fin DELTA /\ toR DELTA = 7378697629483821 * bpow radix2 (-66).
Proof. unfold DELTA. apply b_dyadic_exact; lia. Qed.
Lemma p66 : bpow radix2 (-66) = / 73786976294838206464.
Proof. reflexivity. Qed.
Lemma p67 : bpow radix2 (-67) = / 147573952589676412928.
Proof. reflexivity. Qed.
Lemma DELTA_near : Rabs (toR DELTA - / 10000) <= bpow radix2 (-67).
Proof. rewrite (proj2 DELTA_ok), p66, p67. apply Rabs_le. lra. Qed.
Lemma lt_ok (x y : b64) : fin x -> fin y -> @Bltb prec64 emax64 x y = Rlt_bool (toR x) (toR y).
Proof. intros Fx Fy. exact (Bltb_correct prec64 emax64 x y Fx Fy). Qed.
Lemma lt_fin (x y : b64) : fin y -> @Bltb prec64 emax64 (Babs x) y = true -> fin x.
Proof. intros Fy H. destruct x as [s|[|]| |s m e Hb], y as [s'|[|]| |s' m' e' Hb']; try reflexivity; try discriminate Fy; cbn in H; try discriminate H; destruct s'; discriminate H. Qed.
Lemma sub_fin (a b : b64) : fin (f_sub Bops a b) -> fin a /\ fin b.
Proof. intros H. destruct a as [s|[|]| |s m e Hb], b as [s'|[|]| |s' m' e' Hb']; cbn in H; try discriminate H; split; reflexivity. Qed.

(** *** C81: what "approximately equal" accepts *)
(** The helper accepts only finite numbers that differ by less than 1e-4 (give or take 2^-67), and all finite numbers that differ by at
    most 1e-4 - 2^-65: NaN and infinities never pass, not even compared with themselves. *)
Theorem C81_accepted_numbers : forall expected actual : b64,
  (accepted expected actual -> fin expected /\ fin actual /\ Rabs (toR expected - toR actual) < / 10000 + bpow radix2 (-67))
  /\ (fin expected -> fin actual -> Rabs (toR expected - toR actual) <= / 10000 - bpow radix2 (-65) -> accepted expected actual)
  /\ (accepted expected actual <-> accepted actual expected).
Proof.
  intros a b. pose proof DELTA_ok as (FD & VD). pose proof DELTA_near as HD. apply Rabs_le_inv in HD.
  assert (GD : generic_format radix2 (FLT_exp (-1074) 53) (toR DELTA)) by exact (generic_format_B2R prec64 emax64 DELTA).
  assert (Pass : forall x y, accepted x y -> fin x /\ fin y /\ Rabs (toR x - toR y) < toR DELTA).
  { intros x y H. unfold accepted, assert_approximately_equal, approx_eq in H. destruct (Bltb _ _) eqn:Hl; [|discriminate H].
    pose proof (lt_fin _ _ FD Hl) as Fs. destruct (sub_fin _ _ Fs) as (Fx & Fy). split; [exact Fx|]. split; [exact Fy|].
    assert (FA : fin (Babs (f_sub Bops x y))) by (destruct (f_sub Bops x y); try discriminate Fs; reflexivity).
    assert (Hl0 : Rlt_bool (toR (Babs (f_sub Bops x y))) (toR DELTA) = true) by (etransitivity; [symmetry; exact (lt_ok _ _ FA FD)|exact Hl]).
    clear Hl. revert Hl0. case Rlt_bool_spec; intros Hl HH; [|discriminate HH]. clear HH.
    assert (Hl' : Rabs (toR (f_sub Bops x y)) < toR DELTA) by (eapply Rle_lt_trans; [right; symmetry; apply B2R_Babs|exact Hl]).
    pose proof (Bminus_correct prec64 emax64 _ _ mode_NE x y Fx Fy) as HB. revert HB. case Rlt_bool_spec; intros Hov HB.
    - destruct HB as (HB & _). destruct (Rlt_or_le (Rabs (toR x - toR y)) (toR DELTA)) as [Hd|Hd]; [exact Hd|].
      exfalso. apply (Rlt_not_le _ _ Hl'). eapply Rle_trans; [|right; symmetry; exact (f_equal Rabs HB)].
      refine (abs_round_ge_generic radix2 (SpecFloat.fexp prec64 emax64) _ _ _ _ _); [exact GD|exact Hd].
    - destruct HB as (HB & _). exfalso. assert (HF : is_finite_SF (B2SF (Bminus mode_NE x y)) = true) by (etransitivity; [apply is_finite_SF_B2SF|exact Fs]).
      assert (HF' : is_finite_SF (binary_overflow prec64 emax64 mode_NE (Bsign x)) = true) by (etransitivity; [symmetry; exact (f_equal is_finite_SF HB)|exact HF]).
      cbn in HF'. discriminate HF'. }
  assert (Conv : forall x y, fin x -> fin y -> Rabs (toR x - toR y) <= toR DELTA - bpow radix2 (-66) -> accepted x y).
  { intros x y Fx Fy Hd. destruct (b_sub_ok x y Fx Fy) as (Fs & Vs).
    { apply small_le with 0%Z; [lia|]. rewrite p66 in Hd. rewrite p67 in HD. simpl bpow. lra. }
    unfold accepted, assert_approximately_equal, approx_eq.
    assert (FA : fin (Babs (f_sub Bops x y))) by (destruct (f_sub Bops x y); try discriminate Fs; reflexivity).
    assert (HL : @Bltb prec64 emax64 (@Babs prec64 emax64 (f_sub Bops x y)) DELTA = true); [|now rewrite HL].
    etransitivity; [exact (lt_ok _ _ FA FD)|]. apply Rlt_bool_true. eapply Rle_lt_trans; [right; apply B2R_Babs|].
    apply Rle_lt_trans with (toR DELTA - bpow radix2 (-66)); [|pose proof (bpow_gt_0 radix2 (-66)); lra].
    eapply Rle_trans; [right; exact (f_equal Rabs Vs)|].
    assert (Hp : toR DELTA - bpow radix2 (-66) = IZR 7378697629483820 * bpow radix2 (-66)).
    { rewrite VD. assert (EI : IZR 7378697629483820 = 7378697629483821 - 1) by (rewrite <- minus_IZR; reflexivity). rewrite EI. ring. }
    rewrite Hp in Hd |- *. apply abs_round_le_generic; auto with typeclass_instances. apply generic_dyadic; lia. }
  split; [|split].
  - intros H. destruct (Pass a b H) as (Fa & Fb & Hd). split; [exact Fa|]. split; [exact Fb|]. lra.
  - intros Fa Fb Hd. apply Conv; try assumption. rewrite p66, p67 in *. assert (p65 : bpow radix2 (-65) = / 36893488147419103232) by reflexivity. rewrite p65 in Hd. lra.
  - assert (Sym : forall x y, accepted x y -> accepted y x).
    { intros x y H. destruct (Pass x y H) as (Fx & Fy & Hd). unfold accepted, assert_approximately_equal, approx_eq in *.
      assert (Sm : forall p q, Rabs (toR p - toR q) < toR DELTA -> small (toR p - toR q)).
      { intros p q Hpq. apply small_le with 0%Z; [lia|]. rewrite p67 in HD. simpl bpow. lra. }
      destruct (b_sub_ok x y Fx Fy (Sm x y Hd)) as (F1 & V1). assert (Hd' : Rabs (toR y - toR x) < toR DELTA) by (rewrite Rabs_minus_sym; exact Hd).
      destruct (b_sub_ok y x Fy Fx (Sm y x Hd')) as (F2 & V2).
      assert (FA1 : fin (Babs (f_sub Bops x y))) by (destruct (f_sub Bops x y); try discriminate F1; reflexivity).
      assert (FA2 : fin (Babs (f_sub Bops y x))) by (destruct (f_sub Bops y x); try discriminate F2; reflexivity).
      assert (Eq : toR (Babs (f_sub Bops x y)) = toR (Babs (f_sub Bops y x))).
      { etransitivity; [apply B2R_Babs|]. symmetry. etransitivity; [apply B2R_Babs|].
        etransitivity; [exact (f_equal Rabs V2)|]. symmetry. etransitivity; [exact (f_equal Rabs V1)|].
        replace (toR y - toR x) with (- (toR x - toR y)) by ring. unfold rnd. rewrite round_NE_opp, Rabs_Ropp. reflexivity. }
      destruct (@Bltb prec64 emax64 (@Babs prec64 emax64 (f_sub Bops x y)) DELTA) eqn:H1; [|discriminate H].
      assert (H2 : @Bltb prec64 emax64 (@Babs prec64 emax64 (f_sub Bops y x)) DELTA = true); [|now rewrite H2].
      etransitivity; [exact (lt_ok _ _ FA2 FD)|]. rewrite <- Eq. etransitivity; [symmetry; exact (lt_ok _ _ FA1 FD)|exact H1]. }
    split; apply Sym.
Qed.

(** *** C81: vectors and matrices *)
Lemma check_from_iff {A} (check : A -> A -> verdict) at_index l : forall i,
  check_from check at_index i l = Passes <-> forall k x, nth_error l k = Some x -> exists e, at_index (i + k)%nat = Some e /\ check e x = Passes.
Proof.
  induction l as [|y t IH]; intros i; cbn [check_from].
  - split; [intros _ [|k] x H; discriminate H|reflexivity].
  - specialize (IH (S i)). split.
    + intros H. destruct (at_index i) as [e|] eqn:Ee; [|discriminate H]. destruct (check e y) eqn:Ec; cbn [and_then] in H; try discriminate H.
      intros [|k] x Hx.
      * cbn in Hx. assert (x = y) by congruence. subst x. exists e. rewrite Nat.add_0_r. auto.
      * replace (i + S k)%nat with (S i + k)%nat by lia. apply (proj1 IH H k x Hx).
    + intros H. destruct (H 0%nat y eq_refl) as (e & Ee & Ec). rewrite Nat.add_0_r in Ee. rewrite Ee, Ec. cbn [and_then].
      apply IH. intros k x Hx. replace (S i + k)%nat with (i + S k)%nat by lia. apply H. exact Hx.
Qed.
Lemma nth_firstn_lt {A} : forall n (l : list A) i, (i < n)%nat -> nth_error (firstn n l) i = nth_error l i.
Proof. induction n as [|n IH]; intros [|x l] [|i] H; try lia; try reflexivity. cbn. apply IH. lia. Qed.
(** The one-dimensional helper accepts exactly those actual vectors that are no longer than the expected one and agree with it element
    by element: an actual vector that stops early - even an empty one - passes. *)
Theorem C81_vectors_are_compared_up_to_the_actual_length : forall expected actual,
  (assert_approximately_equals_1d expected actual = Passes <->
   (length actual <= length expected)%nat /\ forall i e a, nth_error expected i = Some e -> nth_error actual i = Some a -> accepted e a)
  /\ assert_approximately_equals_1d expected [] = Passes
  /\ (forall n, (forall i e, nth_error expected i = Some e -> accepted e e) -> assert_approximately_equals_1d expected (firstn n expected) = Passes).
Proof.
  intros expected. assert (Iff : forall actual, assert_approximately_equals_1d expected actual = Passes <->
   (length actual <= length expected)%nat /\ forall i e a, nth_error expected i = Some e -> nth_error actual i = Some a -> accepted e a).
  { intros actual. unfold assert_approximately_equals_1d. rewrite check_from_iff. split.
    - intros H. split.
      + destruct (Nat.le_gt_cases (length actual) (length expected)) as [Hl|Hl]; [exact Hl|]. exfalso.
        destruct (nth_error actual (length expected)) as [x|] eqn:Ex; [|apply nth_error_None in Ex; lia].
        destruct (H _ x Ex) as (e & Ee & _). cbn [Nat.add] in Ee. rewrite (proj2 (nth_error_None _ _) (le_n _)) in Ee. discriminate.
      + intros i e a Ee Ea. destruct (H i a Ea) as (e' & Ee' & Hc). cbn [Nat.add] in Ee'. assert (e' = e) by congruence. subst e'. exact Hc.
    - intros (Hl & H) k x Hx. cbn [Nat.add]. destruct (nth_error expected k) as [e|] eqn:Ee; [exists e; split; [reflexivity|now apply (H k)]|].
      apply nth_error_None in Ee. assert (k < length actual)%nat by (apply nth_error_Some; congruence). lia. }
  intros actual. split; [apply Iff|]. split; [reflexivity|]. intros n Hself. apply Iff. rewrite firstn_length. split; [lia|].
  intros i e a Ee Ea. assert (Hi : (i < n)%nat) by (assert (Hlt : (i < length (firstn n expected))%nat) by (apply nth_error_Some; congruence); rewrite firstn_length in Hlt; lia).
  rewrite nth_firstn_lt in Ea by exact Hi. assert (a = e) by congruence. subst a. now apply (Hself i).
Qed.

Lemma check_rows_iff {A} (check : A -> A -> verdict) (expected : array2 A) rs : forall i,
  check_rows check expected i rs = Passes <-> forall k r j x, nth_error rs k = Some r -> nth_error r j = Some x -> exists e, at2 expected (i + k) j = Some e /\ check e x = Passes.
Proof.
  induction rs as [|y t IH]; intros i; cbn [check_rows].
  - split; [intros _ [|k] r j x H; discriminate H|reflexivity].
  - specialize (IH (S i)). split.
    + intros H. destruct (check_from check (at2 expected i) 0 y) eqn:Ec; cbn [and_then] in H; try discriminate H. rewrite check_from_iff in Ec.
      intros [|k] r j x Hr Hx.
      * cbn in Hr. assert (r = y) by congruence. subst r. rewrite Nat.add_0_r. exact (Ec j x Hx).
      * replace (i + S k)%nat with (S i + k)%nat by lia. exact (proj1 IH H k r j x Hr Hx).
    + intros H. assert (Ec : check_from check (at2 expected i) 0 y = Passes).
      { apply check_from_iff. intros k x Hx. destruct (H 0%nat y k x eq_refl Hx) as (e & Ee & Hc). rewrite Nat.add_0_r in Ee. exists e. auto. }
      rewrite Ec. cbn [and_then]. apply IH. intros k r j x Hr Hx. replace (S i + k)%nat with (i + S k)%nat by lia. apply (H (S k) r j x Hr Hx).
Qed.
(** The complex helpers accept exactly when both parts are accepted. *)
Theorem C81_complex_numbers : forall expected actual,
  (assert_approximately_equal_complex expected actual = Passes <-> accepted (fst expected) (fst actual) /\ accepted (snd expected) (snd actual))
  /\ (assert_approximately_equal_tuple expected actual = Passes <-> accepted (fst expected) (fst actual) /\ accepted (snd expected) (snd actual)).
Proof.
  intros e a. unfold assert_approximately_equal_complex, assert_approximately_equal_tuple, accepted, assert_approximately_equal.
  destruct (approx_eq (fst e) (fst a)), (approx_eq (snd e) (snd a)); cbn [and_then]; split; split; try discriminate; try (intros (? & ?); discriminate); auto.
Qed.
Lemma matrices_iff {A} (check : A -> A -> verdict) (expected actual : array2 A) : wf expected -> wf actual ->
  (check_rows check expected 0 (rows actual) = Passes <->
   forall i j a, cell actual i j = Some a -> exists e, cell expected i j = Some e /\ check e a = Passes)
  /\ (check_rows check expected 0 (rows actual) = Passes -> (0 < dim0 actual)%nat -> (0 < dim1 actual)%nat -> (dim0 actual <= dim0 expected)%nat /\ (dim1 actual <= dim1 expected)%nat).
Proof.
  intros We Wa.
  assert (At : forall i j, at2 expected i j = cell expected i j).
  { intros i j. unfold at2, cell. destruct We as (L & R). destruct (Nat.ltb_spec i (dim0 expected)), (Nat.ltb_spec j (dim1 expected)); cbn [andb]; try reflexivity.
    - destruct (nth_error (rows expected) i) as [r|] eqn:Er; [|reflexivity]. symmetry. apply nth_error_None. rewrite Forall_forall in R. rewrite (R r (nth_error_In _ _ Er)). assumption.
    - rewrite (proj2 (nth_error_None _ _)); [reflexivity|]. lia.
    - rewrite (proj2 (nth_error_None _ _)); [reflexivity|]. lia. }
  assert (Iff : check_rows check expected 0 (rows actual) = Passes <-> forall i j a, cell actual i j = Some a -> exists e, cell expected i j = Some e /\ check e a = Passes).
  { rewrite check_rows_iff. split.
    - intros H i j a Hc. unfold cell in Hc. destruct (nth_error (rows actual) i) as [r|] eqn:Er; [|discriminate]. destruct (H i r j a Er Hc) as (e & Ee & Hx). cbn [Nat.add] in Ee. rewrite At in Ee. exists e. auto.
    - intros H k r j x Hr Hx. cbn [Nat.add]. rewrite At. apply (H k j x). unfold cell. rewrite Hr. exact Hx. }
  split; [exact Iff|]. rewrite Iff. intros H H0 H1.
  assert (Cell : forall i j, (i < dim0 actual)%nat -> (j < dim1 actual)%nat -> exists a, cell actual i j = Some a).
  { intros i j Hi Hj. destruct Wa as (L & R). unfold cell. destruct (nth_error (rows actual) i) as [r|] eqn:Er; [|apply nth_error_None in Er; lia].
    rewrite Forall_forall in R. pose proof (R r (nth_error_In _ _ Er)). destruct (nth_error r j) as [a|] eqn:Ea; [eauto|apply nth_error_None in Ea; lia]. }
  assert (Lt : forall i j e, cell expected i j = Some e -> (i < dim0 expected)%nat /\ (j < dim1 expected)%nat).
  { intros i j e Hc. rewrite <- At in Hc. unfold at2 in Hc. destruct (Nat.ltb_spec i (dim0 expected)), (Nat.ltb_spec j (dim1 expected)); try discriminate Hc. auto. }
  destruct (Cell (dim0 actual - 1)%nat (dim1 actual - 1)%nat ltac:(lia) ltac:(lia)) as (a & Ha). destruct (H _ _ _ Ha) as (e & He & _). apply Lt in He. lia.
Qed.
(** The same in two dimensions, for numbers and for complex numbers: rows and columns the actual matrix lacks are not noticed. *)
Definition accepted_complex (expected actual : b64 * b64) : Prop := accepted (fst expected) (fst actual) /\ accepted (snd expected) (snd actual).
Theorem C81_matrices_are_compared_where_the_actual_one_has_cells :
  (forall (expected actual : array2 b64), wf expected -> wf actual ->
    (assert_approximately_equals_2d expected actual = Passes <->
     forall i j a, cell actual i j = Some a -> exists e, cell expected i j = Some e /\ accepted e a)
    /\ (assert_approximately_equals_2d expected actual = Passes -> (0 < dim0 actual)%nat -> (0 < dim1 actual)%nat -> (dim0 actual <= dim0 expected)%nat /\ (dim1 actual <= dim1 expected)%nat))
  /\ (forall (expected actual : array2 (b64 * b64)), wf expected -> wf actual ->
    (assert_approximately_equals_2d_complex expected actual = Passes <->
     forall i j a, cell actual i j = Some a -> exists e, cell expected i j = Some e /\ accepted_complex e a)
    /\ (assert_approximately_equals_2d_complex expected actual = Passes -> (0 < dim0 actual)%nat -> (0 < dim1 actual)%nat -> (dim0 actual <= dim0 expected)%nat /\ (dim1 actual <= dim1 expected)%nat)).
Proof.
  split; intros expected actual We Wa.
  - exact (matrices_iff approx_eq expected actual We Wa).
  - destruct (matrices_iff assert_approximately_equal_complex expected actual We Wa) as (H1 & H2). split; [|exact H2]. unfold assert_approximately_equals_2d_complex. rewrite H1.
    split; intros H i j a Ha; destruct (H i j a Ha) as (e & He & Hx); exists e; (split; [exact He|]); revert Hx; apply C81_complex_numbers.
Qed.

(** *** C82: nested vectors as arrays *)
Lemma split_rows_id {A} (d : nat) (l : list (list A)) : Forall (fun r => length r = d) l -> split_rows (length l) d (concat l) = l.
Proof.
  induction 1 as [|r t Hr _ IH]; [reflexivity|]. cbn [length split_rows concat]. rewrite firstn_app, skipn_app, <- Hr, Nat.sub_diag, firstn_all, skipn_all. cbn [firstn skipn app]. rewrite app_nil_r, Hr, IH. reflexivity.
Qed.
(** It returns exactly when there is a first row and the total number of elements is the number of rows times its length.  Rows of equal
    length keep their place; rows of different lengths are not always noticed: their elements are then moved to other cells. *)
Theorem C82_nested_vectors_as_arrays : forall (A : Type) (x : list (list A)),
  ((exists m, vector_2d_as_nd_array x = Ok m) <-> exists first rest, x = first :: rest /\ length (concat x) = (length x * length first)%nat)
  /\ (forall m, vector_2d_as_nd_array x = Ok m -> wf m /\ dim0 m = length x /\ into_raw_vec m = concat x)
  /\ (forall d, x <> [] -> Forall (fun r => length r = d) x -> exists m, vector_2d_as_nd_array x = Ok m /\ dim0 m = length x /\ dim1 m = d
        /\ forall i j, cell m i j = match nth_error x i with Some r => nth_error r j | None => None end).
Proof.
  intros A x. split; [|split].
  - split.
    + intros (m & H). destruct x as [|f r]; [discriminate H|]. exists f, r. split; [reflexivity|]. cbn [vector_2d_as_nd_array] in H. apply from_shape_vec_ok in H. apply H.
    + intros (f & r & -> & H). cbn [vector_2d_as_nd_array]. now apply from_shape_vec_total.
  - intros m H. destruct x as [|f r]; [discriminate H|]. cbn [vector_2d_as_nd_array] in H. apply from_shape_vec_ok in H as (_ & W & D0 & D1 & E). auto.
  - intros d Hne Hd. destruct x as [|f r]; [congruence|]. assert (Hf : length f = d) by (inversion Hd; assumption).
    cbn [vector_2d_as_nd_array]. unfold from_shape_vec. rewrite (length_concat_const d) by exact Hd. rewrite Hf, Nat.eqb_refl.
    eexists. split; [reflexivity|]. split; [reflexivity|]. split; [reflexivity|]. intros i j. unfold cell. cbn [rows]. rewrite split_rows_id by exact Hd. reflexivity.
Qed.

(** *** C82: the placeholder crate pseudo-zernike *)
Theorem C82_add : forall checks left right, (0 <= left <= usize_max)%Z -> (0 <= right <= usize_max)%Z ->
  (add checks left right = Ok (left + right)%Z <-> (left + right <= usize_max)%Z)
  /\ ((usize_max < left + right)%Z -> add true left right = Panic ArithOverflow /\ add false left right = Ok (left + right - 2 ^ 64)%Z).
Proof.
  intros checks l r Hl Hr. unfold add. destruct (Z.leb_spec (l + r) usize_max) as [H|H].
  - split; [split; auto|intros H'; lia].
  - unfold usize_max in *. assert (Hm : ((l + r) mod 2 ^ 64 = l + r - 2 ^ 64)%Z).
    { rewrite <- (Z.mod_small (l + r - 2 ^ 64) (2 ^ 64)) by lia. rewrite <- (Z.mod_add (l + r - 2 ^ 64) 1) by lia. f_equal. lia. }
    rewrite Hm. split.
    + split; [|lia]. destruct checks; [discriminate|]. intros E. assert (l + r - 2 ^ 64 = l + r)%Z by congruence. lia.
    + intros _. split; reflexivity.
Qed.

(** ** Concrete cases *)
Example C81_instance :
  accepted (f_of_Z Bops 1) (f_of_Z Bops 1) /\ ~ accepted B754_nan B754_nan /\ ~ accepted (B754_infinity false) (B754_infinity false)
  /\ accepted (f_of_Z Bops 1) (b_dyadic 1048593 (-20)) /\ ~ accepted (b_dyadic 4097 (-12)) (f_of_Z Bops 1)
  /\ assert_approximately_equals_1d [f_of_Z Bops 1; f_of_Z Bops 2] [f_of_Z Bops 1] = Passes
  /\ assert_approximately_equals_1d [f_of_Z Bops 1] [f_of_Z Bops 1; f_of_Z Bops 2] = IndexOutOfBounds
  /\ assert_approximately_equals_2d (mkArray2 1 2 [[f_of_Z Bops 1; f_of_Z Bops 2]]) (mkArray2 1 1 [[f_of_Z Bops 1]]) = Passes.
Proof. repeat split; vm_compute; try reflexivity; discriminate. Qed.
(** three rows of 2, 1 and 3 elements pass for a 3 x 2 matrix *)
Example C82_instance : exists m, vector_2d_as_nd_array [[1; 2]; [3]; [4; 5; 6]]%Z = Ok m /\ rows m = [[1; 2]; [3; 4]; [5; 6]]%Z.
Proof. eexists. split; reflexivity. Qed.

Print Assumptions C81_accepted_numbers.
Print Assumptions C81_vectors_are_compared_up_to_the_actual_length.
Print Assumptions C81_matrices_are_compared_where_the_actual_one_has_cells.
Print Assumptions C81_complex_numbers.
Print Assumptions C82_nested_vectors_as_arrays.
Print Assumptions C82_add.
