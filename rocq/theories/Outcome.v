(** Results of Rust computations.

    A Rust function of the modelled code either returns ([Ok]), panics ([Panic] with the reason), or
    (only [Outside]) is called outside the documented contract of a third-party crate, where the model
    claims nothing.  Modelling convention, not code of /repo. *)
From Coq Require Export List Arith ZArith Lia Bool.
Export ListNotations.

Inductive reason : Type :=
| UnwrapNone        (* Option::unwrap on None *)
| UnwrapErr         (* Result::unwrap on Err *)
| SliceRange        (* slice index / range out of bounds *)
| ArithOverflow     (* checked integer arithmetic overflow *)
| LenMismatch       (* assertion on slice lengths in a callee (copy_from_slice, LDPC, from_shape_vec) *)
| TooLong           (* panic!("too long ...") *)
| TooShort          (* panic!("too short data") *)
| NoCapacity        (* panic!("capacity of ... is less than data to be embedded") *)
| MinCapacity       (* panic!("minimum allowed embedding capacity is 16 bytes") *)
| OutOfBounds       (* panic!("offset ... is out of bounds") *)
| Utf8Error         (* String::from_utf8(..).unwrap() *)
| CapacityOverflow  (* Vec allocation of more than isize::MAX bytes *)
| StackOverflow.    (* recursion without end: the process is aborted *)

Inductive outcome (A : Type) : Type :=
| Ok (a : A)
| Panic (r : reason)
| Outside.
Arguments Ok {A} a.
Arguments Panic {A} r.
Arguments Outside {A}.

(** Sequencing of Rust statements: a panic ends the computation.  Modelling convention, used for every function of /repo. *)
Definition bind {A B} (x : outcome A) (k : A -> outcome B) : outcome B :=
  match x with Ok a => k a | Panic r => Panic r | Outside => Outside end.

Declare Scope outcome_scope.
Delimit Scope outcome_scope with outcome.
Notation "x <- e ;; k" := (bind e (fun x => k))
  (at level 61, e at next level, right associativity) : outcome_scope.
Notation "' p <- e ;; k" := (bind e (fun p => k))
  (at level 61, p pattern, e at next level, right associativity) : outcome_scope.
Open Scope outcome_scope.

(** [Option::unwrap]. *)
Definition unwrap {A} (x : option A) : outcome A :=
  match x with Some a => Ok a | None => Panic UnwrapNone end.

(** Sequential map that stops at the first panic (a Rust [for]/[map].collect() over fallible bodies). *)
Fixpoint mapM {A B} (f : A -> outcome B) (l : list A) : outcome (list B) :=
  match l with
  | [] => Ok []
  | a :: t => b <- f a ;; bs <- mapM f t ;; Ok (b :: bs)
  end.

(** Sequential fold that stops at the first panic (a Rust loop over [&mut] state). *)
Fixpoint foldM {A B} (f : B -> A -> outcome B) (l : list A) (s : B) : outcome B :=
  match l with
  | [] => Ok s
  | a :: t => s' <- f s a ;; foldM f t s'
  end.

(** Specification vocabulary, not code of /repo: the call returned / the call panicked. *)
Definition is_ok {A} (x : outcome A) : bool := match x with Ok _ => true | _ => false end.
Definition is_panic {A} (x : outcome A) : bool := match x with Panic _ => true | _ => false end.

Lemma bind_ok {A B} (x : outcome A) (k : A -> outcome B) b :
  bind x k = Ok b <-> exists a, x = Ok a /\ k a = Ok b.
Proof.
  destruct x; simpl; split; intros H; try discriminate; eauto.
  - destruct H as (a' & [= <-] & H); exact H.
  - destruct H as (a' & H & _); discriminate.
  - destruct H as (a' & H & _); discriminate.
Qed.

Lemma mapM_ok_map {A B} (f : A -> outcome B) (g : A -> B) l :
  (forall a, In a l -> f a = Ok (g a)) -> mapM f l = Ok (map g l).
Proof.
  induction l as [|a t IH]; intros H; simpl; [reflexivity|].
  rewrite H by (left; reflexivity); simpl.
  rewrite IH by (intros; apply H; right; assumption). reflexivity.
Qed.

Lemma mapM_length {A B} (f : A -> outcome B) l bs : mapM f l = Ok bs -> length bs = length l.
Proof.
  revert bs; induction l as [|a t IH]; intros bs H; simpl in *.
  - injection H as <-; reflexivity.
  - apply bind_ok in H as (b & _ & H). apply bind_ok in H as (bs' & H1 & H2).
    injection H2 as <-. simpl. f_equal. apply IH; assumption.
Qed.

Lemma foldM_app {A B} (f : B -> A -> outcome B) l1 l2 s :
  foldM f (l1 ++ l2) s = (s' <- foldM f l1 s ;; foldM f l2 s').
Proof.
  revert s; induction l1 as [|a t IH]; intros s; simpl; [reflexivity|].
  destruct (f s a); simpl; auto.
Qed.
