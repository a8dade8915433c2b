(** Accuracy of the binary64 Zernike features: the radial values for orders up to 21. *)
From Coq Require Import Reals Lra Psatz.
From Flocq Require Import Core BinarySingleNaN.
From Coquelicot Require Import Complex.
From Verif Require Import Outcome Floats FloatFacts Matrix MatrixFacts HaarReal Zernike ZernikeProofs PropsZernike ZernikeBound ZernikeGen ZernikeF64 RelError ZernikeAcc.
Open Scope R_scope.

(** ** the coefficients are exact integers *)
Section Coef.
Context {F : Type} (O : FOps F) (M : libm F) (g : F -> F).
Definition g_coef (order index : Z) (s : F) : outcome F :=
  numerator <- g_factorial O g (f_sub O (f_of_Z O order) s) ;;
  denominator_1 <- g_factorial O g s ;;
  denominator_2 <- g_factorial O g (f_sub O (f_div O (f_add O (f_of_Z O order) (f_of_Z O index)) (f_of_Z O 2)) s) ;;
  denominator_3 <- g_factorial O g (f_sub O (f_div O (f_sub O (f_of_Z O order) (f_of_Z O index)) (f_of_Z O 2)) s) ;;
  Ok (f_div O numerator (f_mul O (f_mul O denominator_1 denominator_2) denominator_3)).
Lemma g_f_coef order index s r : g_f O M g order index s r =
  (c <- g_coef order index s ;;
   Ok (f_mul O c (if f_eq O r (f_of_Z O 0) && f_eq O (f_sub O (f_of_Z O order) (f_mul O (f_of_Z O 2) s)) (f_of_Z O 0) then f_of_Z O 1
    else l_powf M r (f_of_Z O (order - 2 * f_to_i64 O s))))).
Proof.
  unfold g_f, g_coef. match goal with |- context [f_mul O _ (if ?c then ?x else ?y)] => generalize (if c then x else y) end. intros t.
  do 4 (destruct (g_factorial O g _); cbn [bind]; try reflexivity).
Qed.
End Coef.

Definition kcoef (a b s : nat) : Z := (zfact (a + b - s) / (zfact s * zfact (a - s) * zfact (b - s)))%Z.
Definition cases : list (nat * nat * nat) :=
  flat_map (fun k => flat_map (fun i => map (fun s => ((k + i + 1)%nat, (k - i)%nat, s)) (seq 0 (S (k - i)))) (seq 0 (S k))) (seq 0 11).
Lemma cases_in k i s : (k <= 10)%nat -> (i <= k)%nat -> (s <= k - i)%nat -> In ((k + i + 1)%nat, (k - i)%nat, s) cases.
Proof.
  intros Hk Hi Hs. unfold cases. apply in_flat_map. exists k. split; [apply in_seq; lia|]. apply in_flat_map. exists i. split; [apply in_seq; lia|].
  apply in_map_iff. exists s. split; [reflexivity|apply in_seq; lia].
Qed.
Lemma kcoef_exact : forallb (fun '(a, b, s) => (kcoef a b s * (zfact s * zfact (a - s) * zfact (b - s)) =? zfact (a + b - s))%Z && (0 <? kcoef a b s)%Z) cases = true.
Proof. vm_compute. reflexivity. Qed.
Fixpoint zsum (n : nat) (f : nat -> Z) : Z := match n with O => 0 | S m => zsum m f + f m end.
Lemma kcoef_sum : forallb (fun '(a, b, s) => (zsum (S b) (kcoef a b) <=? 18474633)%Z) cases = true.
Proof. vm_compute. reflexivity. Qed.
Definition osf (o : outcome b64) : option SpecFloat.spec_float := match o with Ok x => Some (B2SF x) | _ => None end.
Lemma osf_ok o x : osf o = Some (B2SF x) -> o = Ok x.
Proof. destruct o as [y| |]; cbn; try discriminate. intros E. f_equal. apply B2SF_inj. congruence. Qed.
Lemma coef_float g : map (fun '(a, b, s) => osf (g_coef Bops g (Z.of_nat (a + b)) (Z.of_nat (a - b)) (f_of_Z Bops (Z.of_nat s)))) cases
  = map (fun '(a, b, s) => Some (B2SF (b_of_Z (kcoef a b s)))) cases.
Proof. vm_compute. reflexivity. Qed.

Lemma coef_ok g k i s : (k <= 10)%nat -> (i <= k)%nat -> (s <= k - i)%nat -> let a := (k + i + 1)%nat in let b := (k - i)%nat in
  exists c, g_coef Bops g (Z.of_nat (a + b)) (Z.of_nat (a - b)) (f_of_Z Bops (Z.of_nat s)) = Ok c /\ fin c /\ toR c = IZR (kcoef a b s)
    /\ (0 < kcoef a b s <= 18474633)%Z /\ rcoef a b s = (-1) ^ s * IZR (kcoef a b s) /\ (zsum (S b) (kcoef a b) <= 18474633)%Z.
Proof.
  intros Hk Hi Hs a b. pose proof (cases_in k i s Hk Hi Hs) as Hin. fold a b in Hin.
  assert (Hc : exists c, g_coef Bops g (Z.of_nat (a + b)) (Z.of_nat (a - b)) (f_of_Z Bops (Z.of_nat s)) = Ok c /\ c = b_of_Z (kcoef a b s)).
  { eexists. split; [|reflexivity]. apply osf_ok. pose proof (coef_float g) as E. revert Hin E. generalize cases as l.
    induction l as [|((a', b'), s') t IH]; intros Hin E; [destruct Hin|]. cbn [map] in E.
    assert (E1 := f_equal (hd None) E). cbn [hd] in E1. assert (E2 := f_equal (@tl _) E). cbn [tl] in E2.
    destruct Hin as [Hin|Hin]; [|now apply IH]. assert (a' = a) by congruence. assert (b' = b) by congruence. assert (s' = s) by congruence. subst a' b' s'. exact E1. }
  destruct Hc as (c & Ec & ->). pose proof (proj1 (forallb_forall _ _) kcoef_exact _ Hin) as K1. pose proof (proj1 (forallb_forall _ _) kcoef_sum _ Hin) as K2.
  cbn beta iota in K1, K2. apply andb_prop in K1 as (K1 & K3). apply Z.eqb_eq in K1. apply Z.ltb_lt in K3. apply Z.leb_le in K2.
  assert (Kle : (kcoef a b s <= 18474633)%Z).
  { assert (P : forall s', (s' <= b)%nat -> (0 < kcoef a b s')%Z).
    { intros s' Hs'. pose proof (proj1 (forallb_forall _ _) kcoef_exact _ (cases_in k i s' Hk Hi Hs')) as K. cbn beta iota in K. apply andb_prop in K as (_ & K). now apply Z.ltb_lt in K. }
    assert (Q : forall m, (m <= S b)%nat -> (0 <= zsum m (kcoef a b))%Z /\ forall s', (s' < m)%nat -> (kcoef a b s' <= zsum m (kcoef a b))%Z).
    { induction m as [|m IH]; intros Hm; [split; [reflexivity|lia]|]. destruct (IH ltac:(lia)) as (Q1 & Q2). pose proof (P m ltac:(lia)). cbn [zsum]. split; [lia|].
      intros s' Hs'. destruct (Nat.eq_dec s' m) as [->|Hne]; [lia|]. specialize (Q2 s' ltac:(lia)). lia. }
    destruct (Q (S b) ltac:(lia)) as (_ & Q2). specialize (Q2 s ltac:(unfold b in *; lia)). lia. }
  destruct (b_of_Z_ok (kcoef a b s)) as (Fc & Vc); [lia|].
  exists (b_of_Z (kcoef a b s)). split; [exact Ec|]. split; [exact Fc|]. split; [exact Vc|]. split; [lia|]. split; [|exact K2].
  unfold rcoef. f_equal. rewrite !zfact_fact, <- K1, !mult_IZR.
  assert (N : forall m, IZR (zfact m) <> 0) by (intros m; rewrite <- zfact_fact; pose proof (INR_fact_pos m); lra).
  field. repeat split; apply N.
Qed.
