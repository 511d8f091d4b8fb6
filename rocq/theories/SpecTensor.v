(** Specification vocabulary for tensor-valued properties. *)
From Coq Require Import Reals Bool List Arith.
From Verif Require Import Prelude.
Import ListNotations.

(** Entry (row, column) of the matrix of point [i] in a flat row-major array. *)
Definition entry (dim : nat) (f : list R) (i row col : nat) : option R :=
  nth_error f (i * (dim * dim) + row * dim + col).

(** [f] holds, for each of the [n] points, the matrix [m i], and nothing else. *)
Definition holds_matrices (dim n : nat) (m : nat -> nat -> nat -> R) (f : list R) : Prop :=
  length f = (n * (dim * dim))%nat
  /\ forall i row col, i < n -> row < dim -> col < dim -> entry dim f i row col = Some (m i row col).

Definition identity_times (t : R) (row col : nat) : R := if row =? col then t else 0%R.
Definition diagonal (d : nat -> R) (row col : nat) : R := if row =? col then d row else 0%R.
