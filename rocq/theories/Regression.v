(** Model of the choice of cells for regression output: src/tdyregression.c:6-139.
    [sizes] are the local sizes of the global vector on each process (cells times
    degrees of freedom per cell), in rank order. *)
From Coq Require Import Bool List Arith.
From Verif Require Import Prelude.
Import ListNotations.

(** Lines 29-30: two degrees of freedom only for TH (SALINITY also has two). *)
Inductive rmode := MRichards | MTH | MSalinity.
Definition ndof_per_cell (m : rmode) : nat := match m with MTH => 2 | _ => 1 end.

(** Lines 58-62: MPI_Allreduce with MPI_MIN, then the clipping. *)
Definition allreduce_min (l : list nat) : nat := match l with [] => 0 | a :: l => fold_left min l a end.
Definition clip (sizes : list nat) (requested : nat) : nat :=
  if allreduce_min sizes <? requested then allreduce_min sizes else requested.

(** Lines 68-73; an integer division by zero when no cells are requested or some
    process has none. *)
Definition increment (m : rmode) (size ncells : nat) : outcome nat :=
  if ncells =? 0 then UB
  else Ok (match m with MTH => size / ncells / 2 | _ => size / ncells end).

(** Lines 76-77: MPI_Exscan with MPI_SUM (0 on rank 0). *)
Definition global_offset (sizes : list nat) (rank : nat) : nat := fold_left Nat.add (firstn rank sizes) 0.

(** Lines 87-91: the ids of one process. *)
Definition process_ids (m : rmode) (ncells inc offset : nat) : list nat :=
  flat_map (fun c => map (fun idof => ndof_per_cell m * c * inc + offset + idof) (seq 0 (ndof_per_cell m))) (seq 0 ncells).

Definition sample_process (m : rmode) (sizes : list nat) (requested rank : nat) : outcome (list nat) :=
  let ncells := clip sizes requested in
  do inc <- increment m (nth rank sizes 0) ncells;
  Ok (process_ids m ncells inc (global_offset sizes rank)).

(** Lines 94-128: gathered on rank 0 in rank order. *)
Fixpoint sample_ranks (m : rmode) (sizes : list nat) (requested : nat) (ranks : list nat) : outcome (list nat) :=
  match ranks with
  | [] => Ok []
  | r :: rs => do a <- sample_process m sizes requested r; do b <- sample_ranks m sizes requested rs; Ok (a ++ b)
  end.
Definition sample (m : rmode) (sizes : list nat) (requested : nat) : outcome (list nat) :=
  sample_ranks m sizes requested (seq 0 (length sizes)).
