(** Model of the wrapper functions that evaluate tensor-valued material
    properties: src/materials/tdymaterialproperties.c:378-537, and the Fortran
    versions of src/f90-mod/tdycoref.c:325-365.  A spatial function is the list
    of values it writes to the array it is given. *)
From Coq Require Import Reals Bool List Arith.
From Verif Require Import Prelude Arrays.
Import ListNotations.
Local Open Scope R_scope.

Section Tensor.
Variable dim : nat.      (* wrapper->dim; 3 whenever set through TDy* *)

(** for i<n, j<dim: f[dim2*i + j*dim + j] = rhs i j *)
Definition fill_diagonal (n : nat) (rhs : nat -> nat -> outcome R) (f : list R) : outcome (list R) :=
  for_ n (fun i f => for_ dim (fun j f => do v <- rhs i j; wr f (dim * dim * i + j * dim + j)%nat v) f) f.

(** Lines 441-453: value[0]. *)
Definition ConstantIsotropicTensor (value : list R) (n : nat) (f : list R) : outcome (list R) :=
  fill_diagonal n (fun _ _ => rd value 0) f.
(** Lines 457-471 (and tdycoref.c:325-347): values[i], with values of n entries. *)
Definition IsotropicTensor (values : list R) (n : nat) (f : list R) : outcome (list R) :=
  fill_diagonal n (fun i _ => rd values i) f.
(** Lines 475-487: value[j]. *)
Definition ConstantDiagonalTensor (value : list R) (n : nat) (f : list R) : outcome (list R) :=
  fill_diagonal n (fun _ j => rd value j) f.
(** Lines 491-505: values[3*i+j]. *)
Definition DiagonalTensor (values : list R) (n : nat) (f : list R) : outcome (list R) :=
  fill_diagonal n (fun i j => rd values (3 * i + j)) f.
(** tdycoref.c:351-367: values[dim*i+j]. *)
Definition F90DiagonalTensor (values : list R) (n : nat) (f : list R) : outcome (list R) :=
  fill_diagonal n (fun i j => rd values (dim * i + j)) f.
(** Lines 509-521: f[dim2*i+j] = value[j]. *)
Definition ConstantFullTensor (value : list R) (n : nat) (f : list R) : outcome (list R) :=
  for_ n (fun i f => for_ (dim * dim) (fun j f => do v <- rd value j; wr f (dim * dim * i + j)%nat v) f) f.
(** Lines 525-531: the function writes straight to f. *)
Definition FullTensor (values : list R) (n : nat) (f : list R) : outcome (list R) :=
  if (length values <=? length f)%nat then Ok (values ++ skipn (length values) f) else UB.
End Tensor.

(** The nine-entry value array of the Set macros (lines 577-659): the entries not
    assigned are whatever was on the stack. *)
Definition isotropic_value (t : R) (junk : list R) : list R := t :: junk.
Definition diagonal_value (t0 t1 t2 : R) (junk : list R) : list R := t0 :: t1 :: t2 :: junk.

(** Callers pass a freshly calloc'ed array of 9*nc reals (TDyAlloc; e.g.
    src/fv/mpfao/tdympfao.c:741, src/fv/fvtpf/tdyfvtpf.c:258,
    src/fe/tdybdm.c:276). *)
Definition calloc (n : nat) : list R := repeat 0 n.

(** Model of AssignDiagonalTensors, src/tdyio.c:121-141, the permeability read
    from a file.  [memset(tensors, 0, sizeof(int)*n)] clears n/2 reals (8-byte
    reals, 4-byte ints); for odd n half of the bytes of one more, whose value
    then is [half]. *)
Definition memset_reals (n : nat) (half : R) (f : list R) : outcome (list R) :=
  if (Nat.div n 2 + Nat.modulo n 2 <=? length f)%nat
  then Ok (repeat 0 (Nat.div n 2) ++ (if Nat.odd n then [half] else []) ++ skipn (Nat.div n 2 + Nat.modulo n 2) f)
  else UB.
Definition AssignDiagonalTensors (dim : nat) (Tx Ty Tz : list R) (half : R) (n : nat) (f : list R) : outcome (list R) :=
  do f <- memset_reals n half f;
  for_ n (fun i f =>
    if (dim =? 2)%nat then
      do x <- rd Tx i; do f <- wr f (dim * dim * i) x;
      do y <- rd Ty i; wr f (dim * dim * i + 3) y
    else
      do x <- rd Tx i; do f <- wr f (dim * dim * i) x;
      do y <- rd Ty i; do f <- wr f (dim * dim * i + 4) y;
      do z <- rd Tz i; wr f (dim * dim * i + 8) z) f.
