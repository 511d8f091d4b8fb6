(** Properties of field extraction and of the symmetry check. *)
From Coq Require Import Reals Bool List Arith Lia Lra.
From Verif Require Import Prelude Arrays Fields FieldsProofs.
Import ListNotations.
Local Open Scope nat_scope.

(** C47: the interleaved vector of [cells], each with [bs] fields. *)
Theorem C47_extracted_field_exact : forall bs stride cells, stride < bs -> (forall c, In c cells -> length c = bs) ->
  ExtractSubVectors bs stride (concat cells) = Ok (map (fun c => nth stride c 0%R) cells).
Proof. exact extract_proof. Qed.

Theorem C47_prognostic_field_exact : forall bs index cells dst, index < bs -> (forall c, In c cells -> length c = bs) ->
  length dst = length cells ->
  ExtractPrognosticField true bs index (concat cells) dst = Ok (map (fun c => nth index c 0%R) cells).
Proof. exact prognostic_proof. Qed.

Theorem C47_missing_field_is_error : forall bs stride A, bs <= stride -> ExtractSubVectors bs stride A = Err.
Proof. exact refused_proof. Qed.

(** Refused before setup, for a field that does not exist, and for a vector of
    the wrong size. *)
Theorem C47_prognostic_refused : forall setup bs index src dst, setup = false \/ bs <= index \/ length dst * bs <> length src ->
  ExtractPrognosticField setup bs index src dst = Err.
Proof. exact prognostic_refused_proof. Qed.
Print Assumptions C47_prognostic_refused.

Example C47_example : ExtractSubVectors 2 1 (concat [[1; 2]; [3; 4]; [5; 6]]%R) = Ok [2; 4; 6]%R.
Proof. reflexivity. Qed.

(** C48 *)
Theorem C48_symmetry_check_exact : forall tol A n, length A = n * n ->
  exists e, CheckSymmetric tol A n = Ok e
   /\ (e = 0 <-> forall i j, i < n -> j < n -> (Rabs (nth (i * n + j) A 0%R - nth (j * n + i) A 0%R) <= tol)%R)
   /\ (e <> 0 -> e = 64).
Proof. exact symmetric_proof. Qed.

Example C48_example : CheckSymmetric (1/10) [1; 2; 3; 1]%R 2 = Ok 64.
Proof.
  unfold CheckSymmetric, for_, loop, rd, exceeds. simpl.
  repeat match goal with |- context [Rlt_dec ?a ?b] => destruct (Rlt_dec a b) end; try reflexivity; exfalso;
  match goal with H : ~ (_ < Rabs (2 - 3))%R |- _ => apply H; unfold Rabs; destruct (Rcase_abs (2 - 3)); lra end.
Qed.

Print Assumptions C47_extracted_field_exact.
Print Assumptions C47_prognostic_field_exact.
Print Assumptions C47_missing_field_is_error.
Print Assumptions C48_symmetry_check_exact.
