(** Property C51: the pseudo-random generator (lib/sia/rust/utils/src/pseudo_random.rs). *)
From Coq Require Import Reals Lra.
From Flocq Require Import Core BinarySingleNaN Plus_error.
From Verif Require Import Outcome Floats FloatFacts Random.
Open Scope Z_scope.

(** ** The f64 remainder is exact *)
Lemma rem_scaled X Y e : Y <> 0 -> (IZR (Z.rem X Y) * bpow radix2 e = r_rem (IZR X * bpow radix2 e) (IZR Y * bpow radix2 e))%R.
Proof.
  intros HY. unfold r_rem. assert (HY' : IZR Y <> 0%R) by now apply IZR_neq.
  pose proof (bpow_gt_0 radix2 e) as Hb.
  replace (IZR X * bpow radix2 e / (IZR Y * bpow radix2 e))%R with (IZR X / IZR Y)%R by (field; lra).
  rewrite Ztrunc_div by exact HY. pose proof (Z.quot_rem' X Y) as E. apply (f_equal IZR) in E. rewrite plus_IZR, mult_IZR in E.
  replace (IZR (Z.rem X Y)) with (IZR X - IZR Y * IZR (Z.quot X Y))%R by lra. ring.
Qed.

Lemma rem_bound X Y : Y <> 0 -> Z.abs (Z.rem X Y) <= Z.abs X /\ Z.abs (Z.rem X Y) < Z.abs Y.
Proof.
  intros HY. split; [|now apply Z.rem_bound_abs].
  rewrite <- Z.rem_abs by exact HY. pose proof (Z.rem_le (Z.abs X) (Z.abs Y) ltac:(lia) ltac:(lia)). exact H.
Qed.

Lemma b_rem_ok (x y : b64) : fin x -> fin y -> toR y <> 0%R -> fin (b_rem x y) /\ toR (b_rem x y) = r_rem (toR x) (toR y).
Proof.
  intros Fx Fy Ny. destruct x as [sx|sx| |sx mx ex Hx]; try discriminate; destruct y as [sy|sy| |sy my ey Hy]; try discriminate; try (now elim Ny).
  - cbn [b_rem]. split; [reflexivity|]. cbn [B2R]. unfold r_rem. unfold Rdiv. rewrite Rmult_0_l. change 0%R with (IZR 0) at 2. rewrite Ztrunc_IZR. simpl. ring.
  - cbn [b_rem]. set (e := Z.min ex ey). set (X := cond_Zopp sx (Zpos mx) * 2 ^ (ex - e)). set (Y := Zpos my * 2 ^ (ey - e)).
    assert (Hex : 0 <= ex - e) by (unfold e; lia). assert (Hey : 0 <= ey - e) by (unfold e; lia).
    assert (PY : 0 < Y) by (unfold Y; apply Z.mul_pos_pos; [lia|]; apply Z.pow_pos_nonneg; lia).
    assert (VX : toR (B754_finite sx mx ex Hx) = (IZR X * bpow radix2 e)%R).
    { cbn [B2R]. unfold F2R. cbn [Fnum Fexp]. unfold X. rewrite mult_IZR. change (2 ^ (ex - e)) with (radix2 ^ (ex - e)). rewrite IZR_Zpower by exact Hex.
      rewrite Rmult_assoc, <- bpow_plus. do 2 f_equal. lia. }
    assert (VY : toR (B754_finite sy my ey Hy) = (IZR (cond_Zopp sy Y) * bpow radix2 e)%R).
    { cbn [B2R]. unfold F2R. cbn [Fnum Fexp]. replace (cond_Zopp sy Y) with (cond_Zopp sy (Zpos my) * 2 ^ (ey - e)) by (unfold Y; destruct sy; cbn [cond_Zopp]; lia).
      rewrite mult_IZR. change (2 ^ (ey - e)) with (radix2 ^ (ey - e)). rewrite IZR_Zpower by exact Hey.
      rewrite Rmult_assoc, <- bpow_plus. do 2 f_equal. lia. }
    assert (NY : cond_Zopp sy Y <> 0) by (destruct sy; cbn [cond_Zopp]; lia).
    assert (ER : Z.rem X (cond_Zopp sy Y) = Z.rem X Y) by (destruct sy; cbn [cond_Zopp]; [apply Z.rem_opp_r; lia|reflexivity]).
    rewrite VX, VY, <- rem_scaled by exact NY. rewrite ER.
    destruct (rem_bound X Y ltac:(lia)) as (B1 & B2).
    assert (Ex53 : Zpos mx < 2 ^ 53 /\ -1074 <= ex /\ Zpos my < 2 ^ 53 /\ -1074 <= ey).
    { clear - Hx Hy. unfold SpecFloat.bounded, SpecFloat.canonical_mantissa, SpecFloat.fexp, SpecFloat.emin in *.
      apply andb_prop in Hx as (Hx & _), Hy as (Hy & _). apply Zeq_bool_eq in Hx, Hy. rewrite Digits.Zpos_digits2_pos in Hx, Hy.
      pose proof (Digits.Zdigits_correct radix2 (Zpos mx)) as (_ & D1). pose proof (Digits.Zdigits_correct radix2 (Zpos my)) as (_ & D2).
      rewrite Z.abs_eq in D1, D2 by lia.
      assert (Digits.Zdigits radix2 (Zpos mx) <= 53 /\ Digits.Zdigits radix2 (Zpos my) <= 53) as (L1 & L2) by lia.
      assert (M : forall d, d <= 53 -> radix2 ^ d <= 2 ^ 53) by (intros d Hd; apply Z.pow_le_mono_r; lia).
      pose proof (M _ L1). pose proof (M _ L2). lia. }
    destruct Ex53 as (Mx & Ex & My & Ey).
    assert (HR : Z.abs (Z.rem X Y) <= 2 ^ 53).
    { destruct (Z.le_ge_cases ex ey) as [Hle|Hle].
      - assert (AX : Z.abs X = Zpos mx) by (unfold X; replace (ex - e) with 0 by (unfold e; lia); rewrite Z.pow_0_r; destruct sx; cbn [cond_Zopp]; lia). lia.
      - assert (AY : Y = Zpos my) by (unfold Y; replace (ey - e) with 0 by (unfold e; lia); rewrite Z.pow_0_r; lia). lia. }
    assert (He : -1074 <= e) by (unfold e; lia).
    pose proof (binary_normalize_correct prec64 emax64 _ _ mode_NE (Z.rem X Y) e sx) as H. cbv zeta in H. unfold F2R in H. cbn [Fnum Fexp] in H.
    change (round radix2 (SpecFloat.fexp prec64 emax64) (round_mode mode_NE)) with rnd in H.
    rewrite rnd_generic in H by (apply generic_dyadic; assumption).
    rewrite Rlt_bool_true in H.
    + destruct H as (H1 & H2 & _). split; [exact H2|exact H1].
    + apply Rle_lt_trans with (Rabs (toR (B754_finite sx mx ex Hx))); [|apply abs_B2R_lt_emax].
      rewrite VX, !Rabs_mult. apply Rmult_le_compat_r; [apply Rabs_pos|]. rewrite <- !abs_IZR. now apply IZR_le.
Qed.

(** ** Rounding keeps integers integers *)
Lemma rnd_integer z : exists z', rnd (IZR z) = IZR z'.
Proof.
  destruct (Z_le_gt_dec (Z.abs z) (2 ^ 53)) as [H|H]; [exists z; now apply rnd_IZR|].
  unfold rnd, round, F2R. cbn [Fnum Fexp].
  assert (Hc : 0 <= cexp radix2 (FLT_exp (-1074) 53) (IZR z)).
  { unfold cexp, FLT_exp. assert (53 < mag radix2 (IZR z)); [|lia]. apply mag_gt_bpow.
    rewrite <- abs_IZR, <- IZR_Zpower by lia. apply IZR_le. change (radix2 ^ 53) with (2 ^ 53). lia. }
  eexists. rewrite <- IZR_Zpower by exact Hc. rewrite <- mult_IZR. reflexivity.
Qed.

Lemma b_int_mul (x y : b64) X Y k : fin x -> fin y -> toR x = IZR X -> toR y = IZR Y -> 0 <= X -> 0 <= Y -> X * Y <= 2 ^ k -> 0 <= k <= 1000 ->
  exists Z, fin (f_mul Bops x y) /\ toR (f_mul Bops x y) = IZR Z /\ 0 <= Z <= 2 ^ k /\ IZR Z = rnd (IZR (X * Y)).
Proof.
  intros Fx Fy Vx Vy Px Py Hk Hr. assert (P : 0 <= X * Y) by (apply Z.mul_nonneg_nonneg; assumption).
  assert (Hs : (Rabs (toR x * toR y) <= bpow radix2 k)%R).
  { rewrite Vx, Vy, <- mult_IZR, Rabs_pos_eq by (apply IZR_le; exact P). rewrite <- IZR_Zpower by lia. apply IZR_le. exact Hk. }
  destruct (b_mul_ok x y Fx Fy (small_le _ k ltac:(lia) Hs)) as (F & V). rewrite Vx, Vy, <- mult_IZR in V.
  destruct (rnd_integer (X * Y)) as (Z & EZ). exists Z. split; [exact F|]. split; [congruence|]. split; [|congruence].
  assert (L1 : (0 <= IZR Z)%R) by (rewrite <- EZ, <- rnd_0; apply rnd_le, IZR_le, P).
  assert (L2 : (IZR Z <= IZR (2 ^ k))%R).
  { rewrite <- EZ. assert (G : rnd (bpow radix2 k) = bpow radix2 k) by (apply rnd_generic, generic_format_bpow; unfold FLT_exp; lia).
    change (2 ^ k) with (radix2 ^ k). rewrite IZR_Zpower by lia. rewrite <- G. apply rnd_le. rewrite <- IZR_Zpower by lia. apply IZR_le. exact Hk. }
  split; [now apply le_IZR|now apply le_IZR].
Qed.

Lemma r_rem_int X Y : 0 <= X -> 0 < Y -> r_rem (IZR X) (IZR Y) = IZR (X mod Y).
Proof.
  intros HX HY. pose proof (rem_scaled X Y 0 ltac:(lia)) as H. simpl bpow in H. rewrite !Rmult_1_r in H. rewrite <- H. f_equal. now rewrite Z.rem_mod_nonneg.
Qed.

(** ** Specification vocabulary *)
Definition MODULUS : Z := 2038074743.
Definition FACTOR : Z := 15485863.
(** A 32- or 64-bit target, and a seed that can be incremented. *)
Definition target (umax : Z) : Prop := 1 <= umax <= 2 ^ 64 - 1.
Definition seedable (umax seed : Z) : Prop := 0 <= seed < umax.

(** ** C51, double precision *)
Lemma unit_f64 umax checks seed : target umax -> seedable umax seed ->
  exists u k, generate_unit Bops b_rem umax checks seed = Ok (u, seed + 1) /\ fin u /\ 0 <= k < MODULUS /\ toR u = rnd (IZR k / IZR MODULUS)
    /\ (0 <= toR u <= 1 - bpow radix2 (-31))%R.
Proof.
  intros (_ & Hu) (Hs0 & Hs). unfold generate_unit, bump. replace (seed =? umax) with false by lia. cbn [bind].
  set (s := seed + 1). assert (Hs1 : 0 <= s <= 2 ^ 64) by (unfold s; lia).
  (* the seed as f64 *)
  assert (FS : exists S, fin (f_of_Z Bops s) /\ toR (f_of_Z Bops s) = IZR S /\ 0 <= S <= 2 ^ 64).
  { change (f_of_Z Bops s) with (b_dyadic s 0). destruct (b_dyadic_ok s 0) as (F & V).
    - simpl bpow. rewrite Rmult_1_r. apply small_IZR. rewrite Z.abs_eq by lia. apply Z.le_trans with (2 ^ 64); [lia|apply Z.pow_le_mono_r; lia].
    - simpl bpow in V. rewrite Rmult_1_r in V. destruct (rnd_integer s) as (S & ES). exists S. split; [exact F|]. split; [congruence|].
      assert (L1 : (0 <= IZR S)%R) by (rewrite <- ES, <- rnd_0; apply rnd_le, IZR_le; lia).
      assert (L2 : (IZR S <= IZR (2 ^ 64))%R).
      { rewrite <- ES. assert (G : rnd (bpow radix2 64) = bpow radix2 64) by (apply rnd_generic, generic_format_bpow; unfold FLT_exp; lia).
        change (IZR (2 ^ 64)) with (IZR (radix2 ^ 64)). rewrite IZR_Zpower by lia. rewrite <- G. apply rnd_le. rewrite <- IZR_Zpower by lia. apply IZR_le. change (radix2 ^ 64) with (2 ^ 64). lia. }
      split; [now apply le_IZR|now apply le_IZR]. }
  destruct FS as (S & F1 & V1 & B1).
  destruct (b_of_Z_ok 15485863 ltac:(lia)) as (F2 & V2). change (b_of_Z 15485863) with (f_of_Z Bops 15485863) in F2, V2.
  destruct (b_of_Z_ok 2038074743 ltac:(lia)) as (F3 & V3). change (b_of_Z 2038074743) with (f_of_Z Bops 2038074743) in F3, V3.
  destruct (b_int_mul _ _ _ _ 88 F1 F2 V1 V2) as (A & FA & VA & BA & _); try lia.
  set (a := f_mul Bops (f_of_Z Bops s) (f_of_Z Bops 15485863)) in *.
  destruct (b_int_mul a a A A 176 FA FA VA VA) as (A2 & FA2 & VA2 & BA2 & _); try lia.
  { replace (2 ^ 176) with (2 ^ 88 * 2 ^ 88) by (rewrite <- Z.pow_add_r by lia; reflexivity). apply Z.mul_le_mono_nonneg; lia. }
  destruct (b_int_mul _ a A2 A 264 FA2 FA VA2 VA) as (A3 & FA3 & VA3 & BA3 & _); try lia.
  { replace (2 ^ 264) with (2 ^ 176 * 2 ^ 88) by (rewrite <- Z.pow_add_r by lia; reflexivity). apply Z.mul_le_mono_nonneg; lia. }
  set (a3 := f_mul Bops (f_mul Bops a a) a) in *.
  destruct (b_rem_ok a3 (f_of_Z Bops 2038074743) FA3 F3) as (FR & VR); [rewrite V3; lra|].
  rewrite VA3, V3, r_rem_int in VR by lia. set (k := A3 mod 2038074743) in *.
  assert (Hk : 0 <= k < 2038074743) by (apply Z.mod_pos_bound; lia).
  set (r := b_rem a3 (f_of_Z Bops 2038074743)) in *.
  assert (Hq : (0 <= IZR k / 2038074743 <= 1 - bpow radix2 (-31))%R).
  { assert (0 <= IZR k <= 2038074742)%R by (split; apply IZR_le; lia). split.
    - apply Rmult_le_pos; [lra|]. apply Rlt_le, Rinv_0_lt_compat. lra.
    - apply Rmult_le_reg_r with 2038074743%R; [lra|]. unfold Rdiv. rewrite Rmult_assoc, Rinv_l, Rmult_1_r by lra. simpl bpow. lra. }
  destruct (b_div_ok r (f_of_Z Bops 2038074743) FR) as (FU & VU).
  { rewrite V3. lra. }
  { rewrite VR, V3. apply (small_le _ 0); [lia|]. rewrite Rabs_pos_eq by apply Hq. simpl bpow. pose proof (bpow_gt_0 radix2 (-31)). lra. }
  exists (f_div Bops r (f_of_Z Bops 2038074743)), k. split; [reflexivity|]. split; [exact FU|]. split; [exact Hk|]. rewrite VU, VR, V3. split; [reflexivity|].
  split.
  - rewrite <- rnd_0. apply rnd_le, Hq.
  - assert (G : rnd (1 - bpow radix2 (-31)) = (1 - bpow radix2 (-31))%R).
    { apply rnd_generic. replace (1 - bpow radix2 (-31))%R with (IZR (2 ^ 31 - 1) * bpow radix2 (-31))%R by (simpl bpow; simpl; lra). apply generic_dyadic; lia. }
    rewrite <- G. apply rnd_le, Hq.
Qed.

Theorem C51_f64_unit_values : forall umax checks seed, target umax -> seedable umax seed ->
  exists u, generate_unit Bops b_rem umax checks seed = Ok (u, seed + 1) /\ fin u /\ (0 <= toR u < 1)%R
    /\ exists k, 0 <= k < MODULUS /\ toR u = rnd (IZR k / IZR MODULUS).
Proof.
  intros umax checks seed Hu Hs. destruct (unit_f64 umax checks seed Hu Hs) as (u & k & E & F & Hk & V & B). exists u. split; [exact E|]. split; [exact F|]. split; [|eauto].
  pose proof (bpow_gt_0 radix2 (-31)). lra.
Qed.

Lemma scaled_in_range (u a b : R) : generic_format radix2 (FLT_exp (-1074) 53) a -> generic_format radix2 (FLT_exp (-1074) 53) b -> (a <= b)%R ->
  (0 <= u <= 1 - bpow radix2 (-31))%R -> (0 <= rnd (u * rnd (b - a)) <= b - a)%R.
Proof.
  intros Ga Gb Hab Hu. assert (Hd0 : (0 <= rnd (b - a))%R) by (rewrite <- rnd_0; apply rnd_le; lra).
  split; [rewrite <- rnd_0; apply rnd_le, Rmult_le_pos; lra|].
  pose proof (bpow_gt_0 radix2 (-31)) as Hp31.
  assert (Hle : (rnd (u * rnd (b - a)) <= rnd (b - a))%R).
  { assert (G : rnd (rnd (b - a)) = rnd (b - a)) by (apply rnd_generic; unfold rnd; apply generic_format_round; auto with typeclass_instances).
    rewrite <- G at 2. apply rnd_le. nra. }
  destruct (Rle_or_lt (rnd (b - a)) (b - a)) as [Hd|Hd]; [lra|].
  (* inexact: the difference is not tiny *)
  assert (Hbig : (bpow radix2 (-1021) <= b - a)%R).
  { destruct (Rle_or_lt (bpow radix2 (-1021)) (b - a)) as [H|H]; [exact H|]. exfalso.
    assert (G : generic_format radix2 (FLT_exp (-1074) 53) (b - a)).
    { unfold Rminus. apply (FLT_format_plus_small radix2 (-1074) 53 b (- a)); [exact Gb|now apply generic_format_opp|]. change (53 + -1074) with (-1021).
      change (b + - a)%R with (b - a)%R. rewrite Rabs_pos_eq by lra. lra. }
    rewrite rnd_generic in Hd by exact G. lra. }
  pose proof (rnd_err (b - a)) as E1. rewrite (Rabs_pos_eq (b - a)) in E1 by lra. apply Rabs_le_inv in E1.
  set (d := rnd (b - a)) in *. assert (Hud : (0 <= u * d)%R) by (apply Rmult_le_pos; lra).
  pose proof (rnd_err (u * d)) as E2. rewrite (Rabs_pos_eq _ Hud) in E2. apply Rabs_le_inv in E2.
  assert (He : (eta <= bpow radix2 (-54) * (b - a))%R).
  { unfold eta. apply Rle_trans with (bpow radix2 (-54) * bpow radix2 (-1021))%R; [rewrite <- bpow_plus; apply bpow_le; lia|]. apply Rmult_le_compat_l; [apply bpow_ge_0|exact Hbig]. }
  assert (Hud2 : (u * d <= (1 - bpow radix2 (-31)) * d)%R) by (apply Rmult_le_compat_r; lra).
  unfold u53 in *. set (x := (b - a)%R) in *. assert (Px : (0 < x)%R) by (pose proof (bpow_gt_0 radix2 (-1021)); lra).
  simpl bpow in *. lra.
Qed.

Theorem C51_f64_generate_stays_in_the_closed_range : forall umax checks seed (from to : b64), target umax -> seedable umax seed ->
  fin from -> fin to -> (- bpow radix2 999 <= toR from <= toR to)%R -> (toR to <= bpow radix2 999)%R ->
  exists x, generate Bops b_rem umax checks from to seed = Ok (x, seed + 1) /\ fin x /\ (toR from <= toR x <= toR to)%R.
Proof.
  intros umax checks seed from to Hu Hs Ff Ft Hr Hr2. destruct (unit_f64 umax checks seed Hu Hs) as (u & k & E & F & _ & _ & B).
  unfold generate. rewrite E. cbn [bind]. set (a := toR from) in *. set (b := toR to) in *.
  assert (H1000 : (bpow radix2 1000 = 2 * bpow radix2 999)%R) by (change 1000 with (1 + 999); rewrite bpow_plus; simpl (bpow radix2 1); reflexivity).
  pose proof (bpow_gt_0 radix2 999) as P999.
  destruct (b_sub_ok to from Ft Ff) as (FD & VD).
  { unfold small. rewrite Rabs_pos_eq by (fold a b; lra). fold a b. lra. }
  fold a b in VD. set (d := f_sub Bops to from) in *.
  assert (G : forall z : b64, generic_format radix2 (FLT_exp (-1074) 53) (toR z)) by (intros z; apply (generic_format_B2R prec64 emax64)).
  pose proof (scaled_in_range (toR u) a b (G from) (G to) ltac:(lra) B) as Hsc.
  assert (Hd : (0 <= toR d <= bpow radix2 1000)%R).
  { rewrite VD. split; [rewrite <- rnd_0; apply rnd_le; lra|].
    assert (Gb : rnd (bpow radix2 1000) = bpow radix2 1000) by (apply rnd_generic, generic_format_bpow; unfold FLT_exp; lia). rewrite <- Gb. apply rnd_le. lra. }
  pose proof (bpow_gt_0 radix2 (-31)) as P31.
  destruct (b_mul_ok u d F FD) as (FM & VM).
  { unfold small. rewrite Rabs_pos_eq by (apply Rmult_le_pos; lra). nra. }
  rewrite VD in VM. set (p := f_mul Bops u d) in *. rewrite <- VM in Hsc.
  destruct (b_add_ok p from FM Ff) as (FA & VA).
  { fold a. unfold small. apply Rabs_le. lra. }
  fold a in VA. exists (f_add Bops p from). split; [reflexivity|]. split; [exact FA|]. rewrite VA. split.
  - rewrite <- (rnd_generic a (G from)) at 1. apply rnd_le. lra.
  - rewrite <- (rnd_generic b (G to)). apply rnd_le. lra.
Qed.

(** The upper end can be returned: the documented half-open range does not hold in double precision. *)
Theorem C51_f64_upper_end_can_be_returned : exists seed (from to : b64), seedable (2 ^ 64 - 1) seed /\ fin from /\ fin to /\ (toR from < toR to)%R
  /\ exists x, generate Bops b_rem (2 ^ 64 - 1) true from to seed = Ok (x, seed + 1) /\ fin x /\ toR x = toR to.
Proof.
  exists 1, (b_of_Z (2 ^ 53)), (b_dyadic (2 ^ 52 + 1) 1). split; [unfold seedable; lia|].
  destruct (b_of_Z_ok (2 ^ 53)) as (F1 & V1); [lia|]. destruct (b_dyadic_exact (2 ^ 52 + 1) 1) as (F2 & V2); [lia|lia|].
  split; [exact F1|]. split; [exact F2|]. split; [rewrite V1, V2; simpl bpow; rewrite <- mult_IZR; apply IZR_lt; lia|].
  assert (C : exists x, generate Bops b_rem (2 ^ 64 - 1) true (b_of_Z (2 ^ 53)) (b_dyadic (2 ^ 52 + 1) 1) 1 = Ok (x, 1 + 1) /\ Beqb x (b_dyadic (2 ^ 52 + 1) 1) = true /\ is_finite x = true)
    by (eexists; split; [reflexivity|]; split; vm_compute; reflexivity).
  destruct C as (x & E & Eb & Fx). exists x. split; [exact E|]. split; [exact Fx|].
  pose proof (Beqb_correct prec64 emax64 x (b_dyadic (2 ^ 52 + 1) 1) Fx F2) as Hc. assert (Hb : Req_bool (toR x) (toR (b_dyadic (2 ^ 52 + 1) 1)) = true) by (etransitivity; [symmetry; exact Hc|exact Eb]).
  revert Hb. case Req_bool_spec; [intros H _; exact H|discriminate].
Qed.

(** Consecutive calls return the same value once the seed no longer fits a double exactly. *)
Theorem C51_f64_large_seeds_repeat : forall checks k, 2 ^ 52 <= k < 2 ^ 53 -> exists u,
  generate_unit Bops b_rem (2 ^ 64 - 1) checks (4 * k - 1) = Ok (u, 4 * k)
  /\ generate_unit Bops b_rem (2 ^ 64 - 1) checks (4 * k) = Ok (u, 4 * k + 1).
Proof.
  intros checks k Hk. unfold generate_unit, bump. replace (4 * k - 1 =? 2 ^ 64 - 1) with false by lia. replace (4 * k =? 2 ^ 64 - 1) with false by lia. cbn [bind].
  replace (4 * k - 1 + 1) with (4 * k) by lia.
  assert (E : f_of_Z Bops (4 * k + 1) = f_of_Z Bops (4 * k)).
  { change (b_dyadic (4 * k + 1) 0 = b_dyadic (4 * k) 0).
    assert (Sm : forall z, 0 <= z <= 2 ^ 56 -> small (IZR z * bpow radix2 0)) by (intros z Hz; simpl bpow; rewrite Rmult_1_r; apply small_IZR; lia).
    destruct (b_dyadic_ok (4 * k + 1) 0 (Sm (4 * k + 1) ltac:(lia))) as (F1 & V1). destruct (b_dyadic_ok (4 * k) 0 (Sm (4 * k) ltac:(lia))) as (F2 & V2).
    simpl bpow in V1, V2. rewrite Rmult_1_r in V1, V2.
    assert (G : forall j, 2 ^ 52 <= j <= 2 ^ 53 -> generic_format radix2 (FLT_exp (-1074) 53) (IZR (4 * j))).
    { intros j Hj. replace (IZR (4 * j)) with (IZR j * bpow radix2 2)%R by (rewrite mult_IZR; change (bpow radix2 2) with (IZR 4); apply Rmult_comm). apply generic_dyadic; lia. }
    assert (ER : rnd (IZR (4 * k + 1)) = IZR (4 * k)).
    { unfold rnd. destruct (Rle_or_lt (IZR (4 * k)) (round radix2 (FLT_exp (-1074) 53) Zfloor (IZR (4 * k + 1)))) as [H|H].
      - assert (HD : round radix2 (FLT_exp (-1074) 53) Zfloor (IZR (4 * k + 1)) = IZR (4 * k)).
        { apply Rle_antisym; [|exact H]. unfold round, F2R, scaled_mantissa. cbn [Fnum Fexp].
          assert (Hc : cexp radix2 (FLT_exp (-1074) 53) (IZR (4 * k + 1)) = 2).
          { unfold cexp, FLT_exp. rewrite (mag_unique_pos radix2 (IZR (4 * k + 1)) 55); [lia|]. rewrite <- !IZR_Zpower by lia. split; [apply IZR_le|apply IZR_lt]; change (radix2 ^ (55 - 1)) with (2 ^ 54); change (radix2 ^ 55) with (2 ^ 55); lia. }
          rewrite Hc. replace (Zfloor (IZR (4 * k + 1) * bpow radix2 (- (2)))) with k; [rewrite mult_IZR; simpl bpow; lra|].
          symmetry. apply Zfloor_imp. rewrite !plus_IZR, mult_IZR. simpl bpow. lra. }
        rewrite <- HD. apply round_N_eq_DN; auto with typeclass_instances. rewrite HD.
        
        assert (HU : (IZR (4 * (k + 1)) <= round radix2 (FLT_exp (-1074) 53) Zceil (IZR (4 * k + 1)))%R).
        { unfold round, F2R, scaled_mantissa. cbn [Fnum Fexp].
          assert (Hc : cexp radix2 (FLT_exp (-1074) 53) (IZR (4 * k + 1)) = 2).
          { unfold cexp, FLT_exp. rewrite (mag_unique_pos radix2 (IZR (4 * k + 1)) 55); [lia|]. rewrite <- !IZR_Zpower by lia. split; [apply IZR_le|apply IZR_lt]; change (radix2 ^ (55 - 1)) with (2 ^ 54); change (radix2 ^ 55) with (2 ^ 55); lia. }
          rewrite Hc. replace (Zceil (IZR (4 * k + 1) * bpow radix2 (- (2)))) with (k + 1); [rewrite mult_IZR; simpl bpow; lra|].
          symmetry. apply Zceil_imp. rewrite minus_IZR, !plus_IZR, mult_IZR. simpl bpow. lra. }
        set (U := round radix2 (FLT_exp (-1074) 53) Zceil (IZR (4 * k + 1))) in *. rewrite mult_IZR, plus_IZR in HU. rewrite plus_IZR, !mult_IZR. lra.
      - exfalso. pose proof (round_le radix2 (FLT_exp (-1074) 53) Zfloor (IZR (4 * k)) (IZR (4 * k + 1)) ltac:(apply IZR_le; lia)) as Hm.
        rewrite (round_generic radix2 (FLT_exp (-1074) 53) Zfloor (IZR (4 * k)) (G k ltac:(lia))) in Hm. lra. }
    apply B2R_Bsign_inj; [exact F1|exact F2| |].
    - rewrite V1, V2, ER, (rnd_generic _ (G k ltac:(lia))). reflexivity.
    - assert (Sg : forall z, 0 < z <= 2 ^ 56 -> Bsign (b_dyadic z 0) = false).
      { intros z Hz. unfold b_dyadic. pose proof (binary_normalize_correct prec64 emax64 _ _ mode_NE z 0 false) as H. cbv zeta in H. unfold F2R in H. cbn [Fnum Fexp] in H.
        rewrite Rlt_bool_true in H by exact (rnd_small _ (Sm z ltac:(lia))). destruct H as (_ & _ & H). etransitivity; [exact H|]. simpl bpow. rewrite Rmult_1_r.
        rewrite Rcompare_Gt; [reflexivity|]. apply IZR_lt. lia. }
      rewrite !Sg by lia. reflexivity. }
  rewrite E. eexists. split; reflexivity.
Qed.

(** ** C51, exact arithmetic *)
Theorem C51_exact_values : forall umax checks seed, target umax -> seedable umax seed ->
  let k := (FACTOR * (seed + 1)) ^ 3 mod MODULUS in
  generate_unit Rops r_rem umax checks seed = Ok ((IZR k / IZR MODULUS)%R, seed + 1) /\ (0 <= IZR k / IZR MODULUS < 1)%R
  /\ forall from to, (from < to)%R -> exists x, generate Rops r_rem umax checks from to seed = Ok (x, seed + 1) /\ (from <= x < to)%R.
Proof.
  intros umax checks seed (_ & Hu) (Hs0 & Hs) k.
  assert (Hk : 0 <= k < MODULUS) by (apply Z.mod_pos_bound; reflexivity).
  assert (EU : generate_unit Rops r_rem umax checks seed = Ok ((IZR k / IZR MODULUS)%R, seed + 1)).
  { unfold generate_unit, bump. replace (seed =? umax) with false by lia. cbn [bind f_mul f_div f_of_Z Rops]. rewrite <- !mult_IZR. rewrite r_rem_int by lia.
    unfold k, MODULUS, FACTOR. do 3 f_equal. f_equal. f_equal. ring. }
  assert (Hr : (0 <= IZR k / IZR MODULUS < 1)%R).
  { unfold MODULUS in *. assert (0 <= IZR k < 2038074743)%R by (split; [apply IZR_le|apply IZR_lt]; lia). split.
    - apply Rmult_le_pos; [lra|]. apply Rlt_le, Rinv_0_lt_compat. lra.
    - apply Rmult_lt_reg_r with 2038074743%R; [lra|]. unfold Rdiv. rewrite Rmult_assoc, Rinv_l, Rmult_1_r by lra. lra. }
  split; [exact EU|]. split; [exact Hr|]. intros from to Hlt. unfold generate. rewrite EU. cbn [bind f_mul f_add f_sub Rops]. eexists. split; [reflexivity|].
  set (u := (IZR k / IZR MODULUS)%R) in *. nra.
Qed.

(** The exact sequence has period 2038074743. *)
Theorem C51_exact_period : forall umax checks seed, target umax -> seedable umax seed -> seedable umax (seed + MODULUS) ->
  exists u, generate_unit Rops r_rem umax checks seed = Ok (u, seed + 1) /\ generate_unit Rops r_rem umax checks (seed + MODULUS) = Ok (u, seed + MODULUS + 1).
Proof.
  intros umax checks seed Hu Hs Hs2. destruct (C51_exact_values umax checks seed Hu Hs) as (E1 & _). destruct (C51_exact_values umax checks _ Hu Hs2) as (E2 & _).
  eexists. split; [exact E1|]. rewrite E2. do 3 f_equal. f_equal.
  assert (M : forall x, (FACTOR * (x + MODULUS + 1)) ^ 3 mod MODULUS = (FACTOR * (x + 1)) ^ 3 mod MODULUS).
  { intros x. replace ((FACTOR * (x + MODULUS + 1)) ^ 3) with ((FACTOR * (x + 1)) ^ 3 + (FACTOR ^ 3 * (3 * (x + 1) ^ 2 + 3 * (x + 1) * MODULUS + MODULUS ^ 2)) * MODULUS) by ring.
    apply Z.mod_add. discriminate. }
  apply M.
Qed.

(** ** C51, histories: what is drawn after re-seeding does not depend on what happened before. *)
Lemma run_app {F} (O : FOps F) rem umax checks h1 : forall h2 s,
  run O rem umax checks (h1 ++ h2) s = ('(xs, s1) <- run O rem umax checks h1 s ;; '(ys, s2) <- run O rem umax checks h2 s1 ;; Ok (xs ++ ys, s2)).
Proof.
  induction h1 as [|o t IH]; intros h2 s; cbn [app run bind].
  - destruct (run O rem umax checks h2 s) as [(ys, s2)| |]; reflexivity.
  - destruct o as [n|a b|]; cbn [run].
    + apply IH.
    + destruct (generate O rem umax checks a b s) as [(x, s1)| |]; cbn [bind]; [|reflexivity|reflexivity]. rewrite IH.
      destruct (run O rem umax checks t s1) as [(xs, s2)| |]; cbn [bind]; [|reflexivity|reflexivity].
      destruct (run O rem umax checks h2 s2) as [(ys, s3)| |]; reflexivity.
    + destruct (generate_unit O rem umax checks s) as [(x, s1)| |]; cbn [bind]; [|reflexivity|reflexivity]. rewrite IH.
      destruct (run O rem umax checks t s1) as [(xs, s2)| |]; cbn [bind]; [|reflexivity|reflexivity].
      destruct (run O rem umax checks h2 s2) as [(ys, s3)| |]; reflexivity.
Qed.

Theorem C51_reseeding_restarts_the_sequence : forall (F : Type) (O : FOps F) rem umax checks before1 before2 n after s1 s2 drawn1 t1 drawn2 t2,
  run O rem umax checks before1 s1 = Ok (drawn1, t1) -> run O rem umax checks before2 s2 = Ok (drawn2, t2) ->
  forall values state, run O rem umax checks (before1 ++ Seed n :: after) s1 = Ok (drawn1 ++ values, state) ->
                       run O rem umax checks (before2 ++ Seed n :: after) s2 = Ok (drawn2 ++ values, state).
Proof.
  intros F O rem umax checks b1 b2 n after s1 s2 d1 t1 d2 t2 H1 H2 values state H. rewrite run_app in *. rewrite H1 in H. rewrite H2. cbn [bind run] in *. unfold reseed in *.
  destruct (run O rem umax checks after n) as [(ys, s')| |]; cbn [bind] in *; try discriminate.
  injection H as E Es. subst s'. apply app_inv_head in E. now rewrite E.
Qed.

(** After k draws the state is the seed plus k: the generator never draws the same seed twice before the counter is exhausted. *)
Theorem C51_draws_advance_the_seed : forall checks umax k seed, target umax -> 0 <= seed -> seed + Z.of_nat k <= umax ->
  exists values, run Bops b_rem umax checks (repeat GenerateUnit k) seed = Ok (values, seed + Z.of_nat k) /\ length values = k
    /\ Forall (fun u => fin u /\ (0 <= toR u < 1)%R) values.
Proof.
  intros checks umax k. induction k as [|k IH]; intros seed Hu Hs Hk.
  - exists []. cbn [repeat run]. split; [do 2 f_equal; lia|]. split; [reflexivity|constructor].
  - cbn [repeat run]. destruct (C51_f64_unit_values umax checks seed Hu ltac:(unfold seedable; lia)) as (u & E & F & B & _). rewrite E. cbn [bind].
    destruct (IH (seed + 1) Hu ltac:(lia) ltac:(lia)) as (vs & Er & L & P). rewrite Er. cbn [bind]. exists (u :: vs). split; [do 2 f_equal; lia|]. split; [cbn [length]; lia|].
    constructor; [split; assumption|exact P].
Qed.

(** At usize::MAX a build with overflow checks panics; without them the sequence restarts with the value 0. *)
Theorem C51_seed_overflow : forall (umax : Z), target umax ->
  generate_unit Bops b_rem umax true umax = Panic ArithOverflow
  /\ exists u, generate_unit Bops b_rem umax false umax = Ok (u, 0) /\ fin u /\ toR u = 0%R.
Proof.
  intros umax Hu. unfold generate_unit, bump. rewrite Z.eqb_refl. split; [reflexivity|]. cbn [bind]. eexists. split; [reflexivity|]. split; vm_compute; reflexivity.
Qed.

(** ** Witnesses *)
Example C51_witness : target (2 ^ 64 - 1) /\ seedable (2 ^ 64 - 1) 41
  /\ exists x, generate Bops b_rem (2 ^ 64 - 1) true (b_of_Z (-2)) (b_of_Z 5) 41 = Ok (x, 42) /\ (-2 <= toR x <= 5)%R.
Proof.
  split; [unfold target; lia|]. split; [unfold seedable; lia|].
  destruct (b_of_Z_ok (-2)) as (F1 & V1); [lia|]. destruct (b_of_Z_ok 5) as (F2 & V2); [lia|].
  assert (1 <= bpow radix2 990)%R by (change 1%R with (bpow radix2 0); apply bpow_le; lia).
  assert (E9 : (bpow radix2 999 = 512 * bpow radix2 990)%R) by (change 999 with (9 + 990); rewrite bpow_plus; simpl (bpow radix2 9); reflexivity).
  destruct (C51_f64_generate_stays_in_the_closed_range (2 ^ 64 - 1) true 41 (b_of_Z (-2)) (b_of_Z 5)) as (x & E & _ & B); try assumption.
  - unfold target; lia.
  - unfold seedable; lia.
  - rewrite V1, V2. split; lra.
  - rewrite V2. lra.
  - exists x. split; [exact E|]. rewrite V1, V2 in B. lra.
Qed.

Print Assumptions C51_f64_unit_values.
Print Assumptions C51_f64_generate_stays_in_the_closed_range.
Print Assumptions C51_f64_upper_end_can_be_returned.
Print Assumptions C51_f64_large_seeds_repeat.
Print Assumptions C51_exact_values.
Print Assumptions C51_exact_period.
Print Assumptions C51_reseeding_restarts_the_sequence.
Print Assumptions C51_draws_advance_the_seed.
Print Assumptions C51_seed_overflow.
