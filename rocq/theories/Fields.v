(** Model of ExtractSubVectors (src/tdyutils.c:638-659), ExtractPrognosticField
    (src/tdycore.c:1827-1843) and CheckSymmetric (src/tdydebug.c:21-34). *)
From Coq Require Import Reals Bool List Arith.
From Verif Require Import Prelude Arrays.
Import ListNotations.
Local Open Scope R_scope.

(** PETSc's VecStrideGather on the local part: entries stride, stride+bs, ... of
    the source are copied to consecutive entries of the destination; the sizes
    must match (PETSC_ERR_ARG_SIZ) and the stride must be below the block size. *)
Definition VecStrideGather (bs stride : nat) (src dst : list R) : outcome (list R) :=
  if (bs <=? stride)%nat then Err
  else if negb (length dst * bs =? length src)%nat then Err
  else for_ (length dst) (fun i d => do x <- rd src (i * bs + stride); wr d i x) dst.

Definition ExtractSubVectors (bs stride : nat) (A : list R) : outcome (list R) :=
  if (bs <=? stride)%nat then Err
  else if (bs =? 0)%nat then UB
  else VecStrideGather bs stride A (repeat 0 (Nat.div (length A) bs)).

Definition ExtractPrognosticField (setup_finished : bool) (bs index : nat) (soln_prev vec : list R) : outcome (list R) :=
  if negb setup_finished then Err else VecStrideGather bs index soln_prev vec.

(** The comparison with 1e-12; [tol] is the tolerance. *)
Definition exceeds (tol a b : R) : bool := if Rlt_dec tol (Rabs (a - b)) then true else false.
Definition CheckSymmetric (tol : R) (A : list R) (n : nat) : outcome nat :=
  for_ n (fun i ierr => for_ n (fun j ierr =>
    do a <- rd A (i * n + j); do b <- rd A (j * n + i);
    Ok (if exceeds tol a b then 64%nat else ierr)) ierr) 0%nat.
