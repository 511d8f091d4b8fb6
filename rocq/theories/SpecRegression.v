(** Ownership of the entries of a distributed vector. *)
From Coq Require Import List Arith.
Import ListNotations.

Fixpoint total (sizes : list nat) : nat := match sizes with [] => 0 | a :: l => a + total l end.

(** Entry [i] of the global vector belongs to process [rank]. *)
Definition owned_by (sizes : list nat) (rank i : nat) : Prop :=
  total (firstn rank sizes) <= i < total (firstn rank sizes) + nth rank sizes 0.

(** The cell an entry of the vector belongs to, with [dofs] unknowns per cell
    (1 in RICHARDS mode, 2 in TH and SALINITY modes). *)
Definition cell_of (dofs i : nat) : nat := i / dofs.
