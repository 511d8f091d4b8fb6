(** Model of the size of the matrix of transmissibilities and of the vector of
    pressures it is multiplied with: the counts of faces of src/fv/share/tdymesh.c:753-808,
    the number of columns chosen in src/fv/mpfao/tdympfao.c:2299-2315 (the same in lines
    2408-2433 and 2477-2493), the columns that are used in lines 1417-1466 and 1580-1645,
    and the storing of the boundary pressures, src/fv/mpfao/tdympfao_utils.c:728-753.

    The flags and numbers of the faces are those of [Owners]. *)
From Coq Require Import List ZArith Bool Arith.
From Verif Require Import Prelude Arrays Mesh Owners.
Import ListNotations.
Local Open Scope Z_scope.

(** TDyMeshGetNumberOfLocalFaces, TDyMeshGetNumberOfNonLocalFaces and
    TDyMeshGetNumberOfNonInternalFaces. *)
Definition count_if (p : bool -> bool) (n : nat) (flags : list bool) : outcome nat :=
  for_ n (fun i k => do b <- rd flags i; Ok (if p b then S k else k)) 0%nat.
Definition NumberOfLocalFaces (n : nat) (s : numbering) : outcome nat := count_if (fun b => b) n (b_flags s).
Definition NumberOfNonLocalFaces (n : nat) (s : numbering) : outcome nat := count_if negb n (b_flags s).
Definition NumberOfNonInternalFaces (n : nat) (internal : list bool) : outcome nat := count_if negb n internal.

(** ncol, lines 2302-2308; [nlocal] is num_cells_local. *)
Definition columns (nlocal n : nat) (s : numbering) (internal : list bool) : outcome nat :=
  do a <- NumberOfNonLocalFaces n s;
  do b <- NumberOfNonInternalFaces n internal;
  Ok (nlocal + a + b)%nat.

(** Lines 1441-1443: the number of a boundary face, from the missing side. *)
Definition bnd_index (off : list Z) (s : numbering) (f : nat) : outcome Z :=
  do o <- rd off f;
  do a <- rdz (b_ids s) (o + 0);
  do b <- rdz (b_ids s) (o + 1);
  Ok (if 0 <=? a then - b - 1 else - a - 1).
(** Lines 1458 and 1463: the columns of a cell and of a boundary face; [N] is num_cells. *)
Definition cell_column (c : nat) : Z := Z.of_nat c.
Definition boundary_column (N : nat) (off : list Z) (s : numbering) (f : nat) : outcome Z :=
  do k <- bnd_index off s f; Ok (k + Z.of_nat N).
(** MatSetValues on a matrix with [ncol] columns: larger columns are refused. *)
Definition set_value (ncol : nat) (col : Z) : outcome unit := if col <? Z.of_nat ncol then Ok tt else Err.

(** TDyMPFAO_SetBoundaryPressure, tdympfao_utils.c:730-753; [v f] is the pressure of face
    [f], [p] the array of P_vec. *)
Definition store_face {A} (N : nat) (internal : list bool) (off : list Z) (s : numbering) (v : nat -> A) (f : nat) (p : list A) : outcome (list A) :=
  do inner <- rd internal f;
  if inner : bool then Ok p
  else do k <- bnd_index off s f; wrz p (k + Z.of_nat N) (v f).
Definition store_boundary {A} (n N : nat) (internal : list bool) (off : list Z) (s : numbering) (v : nat -> A) (p : list A) : outcome (list A) :=
  for_ n (store_face N internal off s v) p.
