(** Property C54: the elapsed-time display (lib/sia/rust/cli/src/timer.rs). *)
From Coq Require List.
From Coq Require Import String Ascii DecimalString ZArith Lia Bool.
From Coq Require DecimalN DecimalFacts.
From Verif Require Import Timer.
Open Scope Z_scope.

(** ** Specification: how a reader understands the text, "NUMBER UNIT" with an optional decimal fraction; the result is the displayed
    value and the size of its last digit, in nanoseconds. *)
Fixpoint split_at (c : ascii) (s : string) : option (string * string) :=
  match s with
  | EmptyString => None
  | String a t => if Ascii.eqb a c then Some (EmptyString, t)
                  else match split_at c t with Some (x, y) => Some (String a x, y) | None => None end
  end.
Definition digits_value (s : string) : option Z :=
  match NilZero.uint_of_string s with Some d => Some (Z.of_N (N.of_uint d)) | None => None end.
Definition unit_ns (u : string) : option Z :=
  if String.eqb u "ns" then Some 1 else if String.eqb u "µs" then Some 1000 else if String.eqb u "ms" then Some 1000000
  else if String.eqb u "s" then Some 1000000000 else None.
Definition read_elapsed (text : string) : option (Z * Z) :=
  match split_at " " text with
  | None => None
  | Some (number, u) =>
    match unit_ns u with
    | None => None
    | Some ns =>
      match split_at "." number with
      | None => match digits_value number with Some v => Some (v * ns, ns) | None => None end
      | Some (whole, fraction) =>
        match digits_value whole, digits_value fraction with
        | Some w, Some f => let scale := 10 ^ Z.of_nat (String.length fraction) in Some (w * ns + f * (ns / scale), ns / scale)
        | _, _ => None
        end
      end
    end
  end.

(** ** helpers *)
Definition digit (a : ascii) : bool := (48 <=? Z.of_N (N_of_ascii a)) && (Z.of_N (N_of_ascii a) <=? 57).
Fixpoint all_digits (s : string) : bool := match s with EmptyString => true | String a t => digit a && all_digits t end.

Lemma digits_of_uint d : all_digits (NilEmpty.string_of_uint d) = true.
Proof. induction d; cbn [NilEmpty.string_of_uint all_digits]; try reflexivity; rewrite IHd; reflexivity. Qed.
Lemma show_digits n : all_digits (show n) = true.
Proof. unfold show, NilZero.string_of_uint. destruct (N.to_uint (Z.to_N n)); try reflexivity; apply digits_of_uint. Qed.

Lemma split_digits c s rest : all_digits s = true -> digit c = false -> split_at c (s ++ String c rest) = Some (s, rest).
Proof.
  intros Hs Hc. induction s as [|a t IH]; cbn [append split_at].
  - now rewrite Ascii.eqb_refl.
  - cbn [all_digits] in Hs. apply andb_prop in Hs as (H1 & H2). destruct (Ascii.eqb a c) eqn:E.
    + apply Ascii.eqb_eq in E. subst a. congruence.
    + rewrite IH by exact H2. reflexivity.
Qed.
Lemma split_none c s : all_digits s = true -> digit c = false -> split_at c s = None.
Proof.
  intros Hs Hc. induction s as [|a t IH]; [reflexivity|]. cbn [all_digits] in Hs. apply andb_prop in Hs as (H1 & H2). cbn [split_at].
  destruct (Ascii.eqb a c) eqn:E; [apply Ascii.eqb_eq in E; subst a; congruence|]. now rewrite IH.
Qed.

Lemma to_uint_not_nil n : N.to_uint n <> Decimal.Nil.
Proof. intros H. pose proof (DecimalN.Unsigned.of_to n) as E. rewrite H in E. cbn in E. subst n. discriminate H. Qed.

Lemma digits_value_show n : 0 <= n -> digits_value (show n) = Some n.
Proof.
  intros H. unfold digits_value, show. rewrite NilZero.usu by apply to_uint_not_nil. rewrite DecimalN.Unsigned.of_to. f_equal. lia.
Qed.

Lemma append_assoc s t u : ((s ++ t) ++ u = s ++ t ++ u)%string.
Proof. induction s as [|a s IH]; cbn [append]; [reflexivity|now rewrite IH]. Qed.

Lemma split_fraction s f rest : all_digits s = true -> all_digits f = true -> split_at " " ((s ++ "." ++ f) ++ String " " rest) = Some ((s ++ "." ++ f)%string, rest).
Proof.
  intros Hs Hf. assert (G : forall t, (forall r, split_at " " (t ++ String " " r) = Some (t, r)) -> forall s, all_digits s = true -> forall r, split_at " " ((s ++ t) ++ String " " r) = Some ((s ++ t)%string, r)).
  { intros t Ht. induction s0 as [|a u IH]; intros Hu r; cbn [append split_at]; [apply Ht|]. cbn [all_digits] in Hu. apply andb_prop in Hu as (H1 & H2).
    destruct (Ascii.eqb a " ") eqn:E; [apply Ascii.eqb_eq in E; subst a; discriminate|]. now rewrite (IH H2). }
  apply G; [|exact Hs]. intros r. cbn [append split_at]. replace (Ascii.eqb "." " ") with false by reflexivity. now rewrite split_digits.
Qed.

Lemma show02_ok n : 0 <= n < 100 -> all_digits (show02 n) = true /\ digits_value (show02 n) = Some n /\ String.length (show02 n) = 2%nat.
Proof.
  intros H. assert (C : List.forallb (fun k => let n := Z.of_nat k in all_digits (show02 n)
      && match digits_value (show02 n) with Some m => m =? n | None => false end && Nat.eqb (String.length (show02 n)) 2) (List.seq 0 100) = true) by (vm_compute; reflexivity).
  rewrite List.forallb_forall in C. specialize (C (Z.to_nat n)). cbn beta zeta in C. rewrite Z2Nat.id in C by lia.
  assert (I : List.In (Z.to_nat n) (List.seq 0 100)) by (apply List.in_seq; lia). apply C in I. apply andb_prop in I as (I & I3). apply andb_prop in I as (I1 & I2).
  split; [exact I1|]. split; [|now apply PeanoNat.Nat.eqb_eq]. destruct (digits_value (show02 n)); [|discriminate]. apply Z.eqb_eq in I2. now subst.
Qed.

Lemma read_plain n u ns : 0 <= n -> unit_ns u = Some ns -> read_elapsed (show n ++ String " " u) = Some (n * ns, ns).
Proof.
  intros Hn Hu. unfold read_elapsed. rewrite split_digits by (try apply show_digits; reflexivity). rewrite Hu.
  rewrite split_none by (try apply show_digits; reflexivity). now rewrite digits_value_show.
Qed.

(** The text and what it denotes, case by case. *)
Lemma elapsed_value secs nanos : 0 <= secs -> 0 <= nanos < 10 ^ 9 ->
  exists unit, (unit = 1 \/ unit = 10 ^ 3 \/ unit = 10 ^ 6 \/ unit = 10 ^ 7 \/ unit = 10 ^ 9)
    /\ read_elapsed (fmt_elapsed secs nanos) = Some ((secs * 10 ^ 9 + nanos) / unit * unit, unit)
    /\ (unit = 1 -> secs * 10 ^ 9 + nanos < 10 ^ 3) /\ (unit = 10 ^ 3 -> 10 ^ 3 <= secs * 10 ^ 9 + nanos < 10 ^ 6) /\ (unit = 10 ^ 6 -> 10 ^ 6 <= secs * 10 ^ 9 + nanos < 10 ^ 9)
    /\ (unit = 10 ^ 7 -> 10 ^ 9 <= secs * 10 ^ 9 + nanos < 10 ^ 10) /\ (unit = 10 ^ 9 -> 10 ^ 10 <= secs * 10 ^ 9 + nanos).
Proof.
  intros Hs Hn. unfold fmt_elapsed. destruct (Z.eqb_spec secs 0) as [ -> |Ns].
  - rewrite Z.mul_0_l, Z.add_0_l. destruct (Z.ltb_spec nanos 1000).
    + exists 1. split; [tauto|]. change " ns"%string with (String " " "ns"). rewrite (read_plain _ _ 1) by (try reflexivity; lia). rewrite Z.div_1_r. split; [reflexivity|]. lia.
    + destruct (Z.ltb_spec nanos 1000000).
      * exists (10 ^ 3). split; [tauto|]. change " µs"%string with (String " " "µs"). rewrite (read_plain _ _ 1000) by (try reflexivity; apply Z.div_pos; lia). split; [reflexivity|]. lia.
      * exists (10 ^ 6). split; [tauto|]. change " ms"%string with (String " " "ms"). rewrite (read_plain _ _ 1000000) by (try reflexivity; apply Z.div_pos; lia). split; [reflexivity|]. lia.
  - destruct (Z.ltb_spec secs 10).
    + exists (10 ^ 7). split; [tauto|]. assert (Hf : 0 <= nanos / 10000000 < 100) by (split; [apply Z.div_pos; lia|apply Z.div_lt_upper_bound; lia]).
      destruct (show02_ok _ Hf) as (D & V & L). split; [|lia]. unfold read_elapsed.
      replace (show secs ++ "." ++ show02 (nanos / 10000000) ++ " s")%string with ((show secs ++ "." ++ show02 (nanos / 10000000)) ++ String " " "s")%string by now rewrite !append_assoc.
      rewrite split_fraction by (try apply show_digits; exact D). change (unit_ns "s") with (Some 1000000000). cbn iota.
      change ("." ++ show02 (nanos / 10000000))%string with (String "." (show02 (nanos / 10000000))). rewrite split_digits by (try apply show_digits; reflexivity).
      rewrite digits_value_show, V, L by lia. change (10 ^ Z.of_nat 2) with 100. change (1000000000 / 100) with 10000000. change (10 ^ 7) with 10000000. change (10 ^ 9) with 1000000000. cbn zeta.
      replace (secs * 1000000000 + nanos) with (nanos + secs * 100 * 10000000) by lia. rewrite Z.div_add by lia. do 2 f_equal. lia.
    + exists (10 ^ 9). split; [tauto|]. change " s"%string with (String " " "s"). rewrite (read_plain _ _ 1000000000) by (try reflexivity; lia). split; [|lia].
      change (10 ^ 9) with 1000000000 in *. rewrite Z.div_add_l by lia. rewrite (Z.div_small nanos) by lia. do 3 f_equal. lia.
Qed.

(** ** C54 *)
(** The displayed value is the elapsed time truncated to the displayed unit. *)
Theorem C54_display_is_a_truncation : forall secs nanos, 0 <= secs -> 0 <= nanos < 10 ^ 9 ->
  let elapsed := secs * 10 ^ 9 + nanos in
  exists value unit, read_elapsed (fmt_elapsed secs nanos) = Some (value, unit) /\ value <= elapsed < value + unit
    /\ (elapsed < 10 ^ 3 -> unit = 1) /\ (10 ^ 3 <= elapsed -> 2 * (elapsed - value) < elapsed).
Proof.
  intros secs nanos Hs Hn elapsed. destruct (elapsed_value secs nanos Hs Hn) as (u & Hu & E & C1 & C2 & C3 & C4 & C5). fold elapsed in E, C1, C2, C3, C4, C5.
  exists (elapsed / u * u), u. split; [exact E|]. assert (Pu : 0 < u) by lia. pose proof (Z.div_mod elapsed u ltac:(lia)) as D. pose proof (Z.mod_pos_bound elapsed u Pu) as M.
  set (q := elapsed / u) in *. rewrite (Z.mul_comm u) in D. split; [lia|]. split; [lia|].
  intros H. assert (u <= elapsed) by lia. assert (1 <= q) by (apply Z.div_le_lower_bound; lia). nia.
Qed.

(** A longer duration is never displayed as a shorter one. *)
Theorem C54_display_is_monotone : forall s1 n1 s2 n2, 0 <= s1 -> 0 <= s2 -> 0 <= n1 < 10 ^ 9 -> 0 <= n2 < 10 ^ 9 ->
  s1 * 10 ^ 9 + n1 <= s2 * 10 ^ 9 + n2 ->
  exists v1 u1 v2 u2, read_elapsed (fmt_elapsed s1 n1) = Some (v1, u1) /\ read_elapsed (fmt_elapsed s2 n2) = Some (v2, u2) /\ v1 <= v2 /\ u1 <= u2.
Proof.
  intros s1 n1 s2 n2 H1 H2 N1 N2 Hle. destruct (elapsed_value s1 n1 H1 N1) as (u1 & U1 & E1 & A). destruct (elapsed_value s2 n2 H2 N2) as (u2 & U2 & E2 & B).
  set (e1 := s1 * 10 ^ 9 + n1) in *. set (e2 := s2 * 10 ^ 9 + n2) in *.
  exists (e1 / u1 * u1), u1, (e2 / u2 * u2), u2. split; [exact E1|]. split; [exact E2|].
  assert (Hu : u1 <= u2) by lia. split; [|exact Hu].
  destruct (Z.eq_dec u1 u2) as [ -> |Ne].
  - apply Z.mul_le_mono_nonneg_r; [lia|]. apply Z.div_le_mono; lia.
  - (* a coarser unit starts at a multiple of itself above the finer range *)
    assert (L1 : e1 / u1 * u1 <= e1) by (pose proof (Z.div_mod e1 u1 ltac:(lia)); pose proof (Z.mod_pos_bound e1 u1 ltac:(lia)); lia).
    assert (Hb : exists b, e1 < b * u2 /\ b * u2 <= e2).
    { destruct U2 as [ -> |[ -> |[ -> |[ -> | -> ]]]]; [lia|exists 1; lia|exists 1; lia|exists 100; lia|exists 10; lia]. }
    destruct Hb as (b & B1 & B2). assert (b <= e2 / u2) by (apply Z.div_le_lower_bound; lia). nia.
Qed.

Example C54_instance : fmt_elapsed 3 78999999 = "3.07 s"%string /\ read_elapsed "3.07 s" = Some (3070000000, 10000000)
  /\ fmt_elapsed 0 1999999 = "1 ms"%string /\ fmt_elapsed 0 999 = "999 ns"%string /\ fmt_elapsed 61 999999999 = "61 s"%string.
Proof. vm_compute. repeat split; reflexivity. Qed.

Print Assumptions C54_display_is_a_truncation.
Print Assumptions C54_display_is_monotone.
