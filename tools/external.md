### Assumed about libraries
PETSc, MPI and LAPACK are not modelled; the calls that matter enter through what their
documentation says:
* `dgesv` returns some solution of the linear system if the matrix is invertible (C04, C39-C40, C66-C67, C74).
* `VecScatter`, `ISLocalToGlobalMapping`, `AO` and partitioners are functions on index lists (C26-C30);
  a partition is an arbitrary assignment of cells to processes.
* `MatSetValues(..., ADD_VALUES)` and `VecSetValues` add to or overwrite entries; negative indices are ignored.
* `SNESSolve`, `TSSolve` and `TSStep` are oracles: any sequence of outcomes is allowed (C12-C16, C38).
* `DMPlex` is given by the cone/closure lists it returns and by coordinates, volumes and centroids
  (C71-C78); hypotheses of the theorems say which meshes are meant.
* `PetscCalloc`/`malloc` succeed; arrays from `PetscCalloc` are zero, from `PetscMalloc` unspecified.
* `MatMeshToCellGraph` connects cells with at least the given number of common columns; `VecLoad` gives each process consecutive blocks of the vector (C108).
* `DMPlexMarkBoundaryFaces` marks the faces with one cell, `DMPlexLabelComplete` gives the points of the closure of a marked point the same value, `DMLabelGetStratumIS` hands out a new reference, or no index set for an empty stratum, and `ISGetIndices` fails without an index set (C112); `MatSetValues` fails for columns beyond the last (C111).
