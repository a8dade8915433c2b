(** ndarray::Array2 as a list of rows, with explicit dimensions.  [dim0] = first axis (rows), [dim1] = second axis.
    Modelling vocabulary for ndarray 0.15 (row-major standard layout). *)
From Verif Require Import Outcome Bits.

(** ndarray::Array2 (used from lib/sia/rust/embedding/src, watermarking/src/process.rs and zernike/src on); [wf]: as many rows and entries as the dimensions say. *)
Record array2 (A : Type) := mkArray2 { dim0 : nat; dim1 : nat; rows : list (list A) }.
Arguments mkArray2 {A}. Arguments dim0 {A}. Arguments dim1 {A}. Arguments rows {A}.

Definition wf {A} (m : array2 A) : Prop :=
  length (rows m) = dim0 m /\ Forall (fun r => length r = dim1 m) (rows m).

(** `Array2::from_shape_vec([d0, d1], v)`: Err unless v.len() = d0*d1; row-major. *)
Fixpoint split_rows {A} (d0 d1 : nat) (v : list A) : list (list A) :=
  match d0 with O => [] | S k => firstn d1 v :: split_rows k d1 (skipn d1 v) end.
(** `Array::from_shape_vec(shape, v).unwrap()`, lib/sia/rust/watermarking/src/process.rs:27-33 *)
Definition from_shape_vec {A} (d0 d1 : nat) (v : list A) : outcome (array2 A) :=
  if Nat.eqb (length v) (d0 * d1) then Ok (mkArray2 d0 d1 (split_rows d0 d1 v)) else Panic UnwrapErr.

(** `into_raw_vec()` / iteration order of `iter()` *)
Definition into_raw_vec {A} (m : array2 A) : list A := concat (rows m).

(** `mapv` *)
Definition mapv {A B} (f : A -> B) (m : array2 A) : array2 B :=
  mkArray2 (dim0 m) (dim1 m) (map (map f) (rows m)).

(** Replace element [i] of a list (no change if out of range). *)
Fixpoint upd {A} (l : list A) (i : nat) (x : A) : list A :=
  match l, i with
  | [], _ => []
  | _ :: t, O => x :: t
  | h :: t, S k => h :: upd t k x
  end.

(** `get(Ix2(i, j))` on the top-left view of shape (w, h): bounds are those of the view. *)
Definition view_get {A} (m : array2 A) (w h i j : nat) : option A :=
  if Nat.ltb i w && Nat.ltb j h then
    match nth_error (rows m) i with Some r => nth_error r j | None => None end
  else None.

(** Assignment to one element, `array[[i, j]] = x` / `*array.get_mut(Ix2(i, j)).unwrap() = x` (lib/sia/rust/embedding/src/io/steganography.rs). *)
Definition set_cell {A} (m : array2 A) (i j : nat) (x : A) : array2 A :=
  mkArray2 (dim0 m) (dim1 m)
    (match nth_error (rows m) i with Some r => upd (rows m) i (upd r j x) | None => rows m end).

(** First [h] entries of row [i] / first [w] entries of column [j] (rows and columns of a top-left view). *)
Definition view_row {A} (m : array2 A) (h i : nat) : list A := firstn h (nth i (rows m) []).
(** First [w] entries of column [j]. *)
Definition view_col {A} (d : A) (m : array2 A) (w j : nat) : list A := map (fun r => nth j r d) (firstn w (rows m)).

(** `array.assign_to(row)` *)
Definition assign_row {A} (m : array2 A) (h i : nat) (v : list A) : array2 A :=
  mkArray2 (dim0 m) (dim1 m) (upd (rows m) i (v ++ skipn h (nth i (rows m) []))).
(** `array.assign_to(column)` *)
Definition assign_col {A} (m : array2 A) (w j : nat) (v : list A) : array2 A :=
  mkArray2 (dim0 m) (dim1 m)
    (map (fun p => upd (fst p) j (snd p)) (combine (firstn w (rows m)) v) ++ skipn w (rows m)).
