(** What the theorems about the steady system say. *)
From Coq Require Import Reals ZArith List Bool Arith.
From Verif Require Import Prelude Mpfao MpfaoTs SpecFvtpf SpecMpfao SpecMpfaoTs Transmit SpecTransmit Steady.
Import ListNotations.
Local Open Scope R_scope.

(** Row [row] of F, and of K P - F. *)
Definition added (l : additions) (row : nat) : R := fold_right (fun e s => (if (fst e =? row)%nat then snd e else 0) + s) 0 l.
Definition residual (s : system) (P : nat -> R) (row : nat) : R := mult (fst s) P row - added (snd s) row.

(** The values that the transmissibilities are applied to: the solution [P], which is
    indexed by global cell numbers, and then the boundary pressures [h]. *)
Definition values (p : steady) (P h : nat -> R) (c : nat) : R :=
  if (c <? length (rocks (t_mesh (s_mesh p))))%nat then P (nth c (s_gid p) O) else h (c - length (rocks (t_mesh (s_mesh p))))%nat.

(** Each cell has its own global number, the cells of the faces exist, and the faces
    of owned cells and their vertices are marked local. *)
Record good_steady (p : steady) : Prop := {
  gs_gid : length (s_gid p) = length (rocks (t_mesh (s_mesh p)));
  gs_distinct : NoDup (s_gid p);
  gs_faces : forall f, In f (faces (t_mesh (s_mesh p))) ->
    (f_up f < Z.of_nat (length (rocks (t_mesh (s_mesh p)))))%Z /\ (f_dn f < Z.of_nat (length (rocks (t_mesh (s_mesh p)))))%Z;
  gs_flags : forall iv j v f a, subface (t_mesh (s_mesh p)) iv j = Some (v, f, a) ->
    owned (t_mesh (s_mesh p)) (f_up f) = true \/ owned (t_mesh (s_mesh p)) (f_dn f) = true -> active v f = true
}.
(** No corners, or a boundary without flux. *)
Definition no_corner_flux (M : tmesh) : Prop :=
  bc (t_mesh M) = NeumannBC \/
  forall iv v e, nth_error (verts (t_mesh M)) iv = Some v -> nth_error (t_extra M) iv = Some e -> ~ corner v e.
(** The source of cell [i]. *)
Definition source (p : steady) (i : nat) : R :=
  match s_forcing p, nth_error (rocks (t_mesh (s_mesh p))) i with Some f, Some k => f i * k_vol k | _, _ => 0 end.
(** The flux through sub-face [j] of vertex [iv], from the up to the down side, that
    the matrix [l] gives. *)
Definition matrix_flux (m : mesh) (l : list entry) (P : nat -> R) (iv j : nat) : R :=
  match subface m iv j with Some (_, _, a) => - mult l P a | None => 0 end.
