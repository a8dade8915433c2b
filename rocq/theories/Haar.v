(** Model of lib/sia/rust/embedding/src/haar/mod.rs, including the one-dimensional Haar transform of the dwt 0.5 crate. *)
From Verif Require Import Outcome Floats Bits Matrix.

Section Haar.
Context {F : Type} (O : FOps F).
Let c := f_sqrt1_2 O.

(** One forward step of `dwt::transform` with `wavelet::Haar` (dec_lo = [c, c], dec_hi = [c, -c], c = FRAC_1_SQRT_2):
    approximation coefficients in the first half, details in the second.  Third-party code, modelled from its
    documentation and from the expectations in the repository's tests (lib/sia/rust/embedding/src/haar/mod.rs:127-171); its
    accumulation from 0.0 is exact up to the sign of a zero and omitted. *)
Fixpoint haar_pairs (l : list F) : list (F * F) :=
  match l with
  | a :: b :: t =>
      (f_add O (f_mul O c a) (f_mul O c b), f_sub O (f_mul O c a) (f_mul O c b)) :: haar_pairs t
  | _ => []
  end.
(** One forward step: approximation coefficients, then details (see [haar_pairs]). *)
Definition forward_step (l : list F) : list F :=
  map fst (haar_pairs l) ++ map snd (haar_pairs l).

(** One inverse step (rec_lo = [c, c], rec_hi = [c, -c]). *)
Definition inverse_step (l : list F) : list F :=
  let nh := Nat.div2 (length l) in
  flat_map (fun p => let '(h, g) := p in
     [f_add O (f_mul O c h) (f_mul O c g); f_sub O (f_mul O c h) (f_mul O c g)])
   (combine (firstn nh l) (skipn nh l)).

(** `dwt::transform(data, op, Haar, level)`: level steps on prefixes of halving length.  The number of points must be
    divisible by 2^level; other lengths are outside the crate's contract. *)
Fixpoint forward_levels (level : nat) (l : list F) : list F :=
  match level with
  | 0%nat => l
  | S k => let l' := forward_step l in
           let nh := Nat.div2 (length l) in
           forward_levels k (firstn nh l') ++ skipn nh l'
  end.
(** `dwt::transform(data, Operation::Inverse, Haar, level)` (lib/sia/rust/embedding/src/haar/mod.rs:4-17). *)
Fixpoint inverse_levels (level : nat) (l : list F) : list F :=
  match level with
  | 0%nat => l
  | S k => let nh := Nat.div2 (length l) in
           inverse_step (inverse_levels k (firstn nh l) ++ skipn nh l)
  end.

(** lib/sia/rust/embedding/src/haar/mod.rs:4-17 *)
Definition dwt_1d (input : list F) (level : nat) (is_backward : bool) : outcome (list F) :=
  if Nat.eqb (length input mod 2 ^ level) 0 then
    Ok (if is_backward then inverse_levels level input else forward_levels level input)
  else Outside.

(** Loop body over rows, lib/sia/rust/embedding/src/haar/mod.rs:35-40, on the view of shape (width, height). *)
Definition process_rows (is_backward : bool) (width height : nat) (m : array2 F) : outcome (array2 F) :=
  foldM (fun m i => v <- dwt_1d (view_row m height i) 1 is_backward ;; Ok (assign_row m height i v))
        (seq 0 width) m.
(** Loop body over columns, lib/sia/rust/embedding/src/haar/mod.rs:43-48. *)
Definition process_columns (is_backward : bool) (width height : nat) (m : array2 F) : outcome (array2 F) :=
  foldM (fun m j => v <- dwt_1d (view_col (f_of_Z O 0) m width j) 1 is_backward ;; Ok (assign_col m width j v))
        (seq 0 height) m.

(** One iteration of the loop, lib/sia/rust/embedding/src/haar/mod.rs:22-48.  `2_i32.pow(iteration)` overflows for
    iteration >= 31 (debug: panic; release: the division by the wrapped value is by i32::MIN or 0). *)
Definition dwt_2d_iteration (is_backward : bool) (m : array2 F) (iteration : nat) : outcome (array2 F) :=
  if Nat.leb 31 iteration then Panic ArithOverflow else
  let width := Nat.div (dim0 m) (2 ^ iteration) in
  let height := Nat.div (dim1 m) (2 ^ iteration) in
  m1 <- process_rows is_backward width height m ;;
  process_columns is_backward width height m1.

(** lib/sia/rust/embedding/src/haar/mod.rs:19-63.  level = 0: `level - 1` underflows (panic with overflow checks; without them the
    loop runs into a division by zero). Forward: iterations 0 .. level-1; backward: level-1 .. 0. *)
Definition dwt_2d (input : array2 F) (level : nat) (is_backward : bool) : outcome (array2 F) :=
  match level with
  | 0%nat => Panic ArithOverflow
  | S _ =>
      foldM (dwt_2d_iteration is_backward)
            (if is_backward then rev (seq 0 level) else seq 0 level) input
  end.
End Haar.
