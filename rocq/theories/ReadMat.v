(** Model of reading material properties from a file: TDyIOReadPermeability, TDyIOReadPorosity
    and TDyIOReadVariable (src/tdyio.c:101-257 and 301-331), on one process of a run with a mesh
    managed by TDycore itself (the reordering is the one of Scatter.v).
    The file is the map from names of data sets to vectors in natural order; opening the file
    and finding the data set are one step.  PetscCalloc1 multiplies by the size of the
    elements, so that TDyAlloc(n,…) reserves n numbers.  Memory that is never released
    (u and u_local, the viewer's) is not modelled. *)
From Coq Require Import Reals List Bool Arith ZArith String.
From Verif Require Import Prelude Arrays UGrid Scatter Tensor.
Import ListNotations.
Local Open Scope R_scope.

(** Everything a process knows of the distribution: unknowns per cell, natural numbers in
    global order, owned cells of every process; own offset, number of cells and ghosts. *)
Record part := Part { ndof : nat; ao : list Z; nls : list nat; off : nat; nl : nat; ghosts : list nat }.
Definition local_cells (d : part) : nat := (nl d + List.length (ghosts d))%nat.

Definition hdf5 := string -> option (list R).

(** TDyIOReadVariable; PETSc refuses to scatter a vector of the wrong length. *)
Definition ReadVariable (d : part) (file : hdf5) (name : string) : outcome (list R) :=
  match file name with
  | None => Err
  | Some u =>
      if negb (List.length u =? List.length (ao d) * ndof d)%nat then Err else
      do l <- natural_to_local (ndof d) (ao d) (nls d) (off d) (nl d) (ghosts d) u
                (repeat 0 (List.length (ao d) * ndof d)) (repeat 0 (local_cells d * ndof d));
      let n := List.length l in
      for_ n (fun i v => do x <- rd l i; wr v i x) (repeat 0 n)
  end.

(** strcpy and sprintf into a buffer of the given size. *)
Definition copy (size : nat) (s : string) : outcome string := if (String.length s + 1 <=? size)%nat then Ok s else UB.

(** What is handed to the material properties. *)
Inductive scalar_field := Values (v : list R) | Uninitialised.
Inductive tensor_field := Diagonals (Tx Ty Tz : list R) | ConstantDiagonal (value : list R).

(** TDyIOReadPorosity, 235-257: the code returned by TDyIOReadVariable is not looked at. *)
Definition ReadPorosity (max_path : nat) (d : part) (file : hdf5) (dataset : string) : outcome scalar_field :=
  do name <- copy max_path (if (String.length dataset =? 0)%nat then "Porosity"%string else dataset);
  match ReadVariable d file name with
  | Ok v => Ok (Values v)
  | Err => Ok Uninitialised
  | UB => UB
  end.
(** AssignScalars, 217-225. *)
Definition AssignScalars (c : scalar_field) (n : nat) (scalars : list R) : outcome (list R) :=
  match c with
  | Values values => for_ n (fun i s => do x <- rd values i; wr s i x) scalars
  | Uninitialised => UB
  end.

(** TDyIOReadPermeability, 163-214. *)
Definition ReadPermeability (max_path : nat) (anisotropic : bool) (d : part) (file : hdf5) (dataset : string)
  : outcome tensor_field :=
  do name <- copy (max_path - 1) (if (String.length dataset =? 0)%nat then "Permeability"%string else dataset);
  if anisotropic then
    do nx <- copy max_path (String.append name "X"); do ny <- copy max_path (String.append name "Y");
    do nz <- copy max_path (String.append name "Z");
    do Kx <- ReadVariable d file nx; do Ky <- ReadVariable d file ny; do Kz <- ReadVariable d file nz;
    Ok (Diagonals Kx Ky Kz)
  else
    do K <- ReadVariable d file name;
    do k0 <- rd K 0; do k1 <- rd K 1; do k2 <- rd K 2;
    Ok (ConstantDiagonal [k0; k1; k2]).
(** The evaluation in three dimensions for the first n cells, into a zeroed array
    (AssignDiagonalTensors, 121-141, and the constant tensor of MaterialProp, in Tensor.v). *)
Definition AssignTensors (c : tensor_field) (n : nat) : outcome (list R) :=
  match c with
  | Diagonals Tx Ty Tz => AssignDiagonalTensors 3 Tx Ty Tz 0 n (calloc (n * (3 * 3)))
  | ConstantDiagonal value => ConstantDiagonalTensor 3 value n (calloc (n * (3 * 3)))
  end.
