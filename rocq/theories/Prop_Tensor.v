(** Properties of tensor-valued material properties. *)
From Coq Require Import Reals Bool List Arith Lra Lia.
From Verif Require Import Prelude Arrays Tensor SpecTensor TensorProofs.
Import ListNotations.
Local Open Scope R_scope.

(** C23: in the zeroed arrays that every caller passes, each kind of tensor
    property yields the corresponding matrix at each point. *)
Theorem C23_constant_scalar_times_identity : forall dim n t junk,
  exists f', ConstantIsotropicTensor dim (isotropic_value t junk) n (calloc (n * (dim * dim))) = Ok f'
    /\ holds_matrices dim n (fun _ => identity_times t) f'.
Proof. exact constant_isotropic_proof. Qed.

Theorem C23_scalar_function_times_identity : forall dim n values, length values = n ->
  exists f', IsotropicTensor dim values n (calloc (n * (dim * dim))) = Ok f'
    /\ holds_matrices dim n (fun i => identity_times (nth i values 0)) f'.
Proof. exact isotropic_proof. Qed.

Theorem C23_constant_diagonal : forall dim n t0 t1 t2 junk, (dim <= 3)%nat ->
  exists f', ConstantDiagonalTensor dim (diagonal_value t0 t1 t2 junk) n (calloc (n * (dim * dim))) = Ok f'
    /\ holds_matrices dim n (fun _ => diagonal (fun j => nth j [t0; t1; t2] 0)) f'.
Proof. exact constant_diagonal_proof. Qed.

Theorem C23_diagonal_function : forall dim n values, (dim <= 3)%nat -> length values = (3 * n)%nat ->
  exists f', DiagonalTensor dim values n (calloc (n * (dim * dim))) = Ok f'
    /\ holds_matrices dim n (fun i => diagonal (fun j => nth (3 * i + j) values 0)) f'.
Proof. exact diagonal_proof. Qed.

Theorem C23_fortran_diagonal_function : forall dim n values, length values = (dim * n)%nat ->
  exists f', F90DiagonalTensor dim values n (calloc (n * (dim * dim))) = Ok f'
    /\ holds_matrices dim n (fun i => diagonal (fun j => nth (dim * i + j) values 0)) f'.
Proof. exact f90_diagonal_proof. Qed.

Theorem C23_diagonals_from_file : forall n Tx Ty Tz,
  length Tx = n -> length Ty = n -> length Tz = n ->
  exists f', AssignDiagonalTensors 3 Tx Ty Tz 0 n (calloc (n * (3 * 3))) = Ok f'
    /\ holds_matrices 3 n (fun i => diagonal (fun j => nth i (nth j [Tx; Ty; Tz] []) 0)) f'.
Proof. exact file_diagonal_proof. Qed.

(** Full tensors do not depend on what was in the array. *)
Theorem C23_constant_matrix : forall dim n value f, (dim * dim <= length value)%nat -> length f = (n * (dim * dim))%nat ->
  exists f', ConstantFullTensor dim value n f = Ok f'
    /\ holds_matrices dim n (fun _ row col => nth (dim * row + col) value 0) f'.
Proof. exact full_constant_proof. Qed.

Theorem C23_matrix_function : forall dim n values f, length values = (n * (dim * dim))%nat -> length f = (n * (dim * dim))%nat ->
  FullTensor values n f = Ok values
  /\ holds_matrices dim n (fun i row col => nth (i * (dim * dim) + row * dim + col) values 0) values.
Proof. exact full_function_proof. Qed.

(** The others keep whatever was off the diagonal. *)
Theorem C23_off_diagonal_entries_kept : forall dim n t junk f i row col f', length f = (n * (dim * dim))%nat ->
  ConstantIsotropicTensor dim (isotropic_value t junk) n f = Ok f' ->
  (i < n)%nat -> (row < dim)%nat -> (col < dim)%nat ->
  entry dim f' i row col = if (row =? col)%nat then Some t else entry dim f i row col.
Proof. exact only_diagonal_proof. Qed.

(** So the claim fails for an array that is not zero: re-evaluating a property
    after a full tensor was replaced by a scalar leaves the old off-diagonal
    entries in place. *)
Theorem C23_any_prior_content_refuted : exists full f f',
  length full = 9%nat /\ length f = 9%nat /\
  (do f <- ConstantFullTensor 3 full 1 f; ConstantIsotropicTensor 3 (isotropic_value 1 []) 1 f) = Ok f'
  /\ entry 3 f' 0 0 1 = Some 2 /\ ~ holds_matrices 3 1 (fun _ => identity_times 1) f'.
Proof.
  exists [2;2;2;2;2;2;2;2;2], (calloc 9). eexists.
  split; [reflexivity|]. split; [reflexivity|]. split; [reflexivity|]. split; [reflexivity|].
  intros [_ H]. specialize (H 0 0 1)%nat. assert (E : Some 2 = Some 0) by (apply H; lia). injection E as E. lra.
Qed.

(** The file reader tries to clear the array first but clears n/2 entries of 9n. *)
Theorem C23_file_clears_array_refuted : exists f f', length f = 18%nat
  /\ AssignDiagonalTensors 3 [1;1] [1;1] [1;1] 0 2 f = Ok f' /\ entry 3 f' 0 0 1 = Some 5.
Proof. exists (repeat 5 18). eexists. split; [reflexivity|]. split; reflexivity. Qed.

Example C23_example : exists f', DiagonalTensor 3 [1;2;3;4;5;6] 2 (calloc 18) = Ok f'
  /\ f' = [1;0;0; 0;2;0; 0;0;3;  4;0;0; 0;5;0; 0;0;6].
Proof. eexists. split; reflexivity. Qed.

Print Assumptions C23_constant_scalar_times_identity.
Print Assumptions C23_scalar_function_times_identity.
Print Assumptions C23_constant_diagonal.
Print Assumptions C23_diagonal_function.
Print Assumptions C23_fortran_diagonal_function.
Print Assumptions C23_diagonals_from_file.
Print Assumptions C23_constant_matrix.
Print Assumptions C23_matrix_function.
Print Assumptions C23_off_diagonal_entries_kept.
Print Assumptions C23_any_prior_content_refuted.
Print Assumptions C23_file_clears_array_refuted.
