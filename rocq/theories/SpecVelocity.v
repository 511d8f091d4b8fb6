(** What the theorems about the recovered velocities say. *)
From Coq Require Import Reals ZArith List Bool Arith.
From Verif Require Import Prelude Mpfao MpfaoTs SpecFvtpf SpecMpfao SpecMpfaoTs Transmit SpecTransmit SpecSteady Velocity.
Import ListNotations.
Local Open Scope R_scope.

(** The number of the face of sub-face [j] of vertex [iv]. *)
Definition face_at (m : mesh) (iv j : nat) : option nat :=
  match nth_error (verts m) iv with Some v => nth_error (x_faces v) j | None => None end.
(** The sum of [F] over the sub-faces of face [a]. *)
Definition through (m : mesh) (a : nat) (F : nat -> nat -> R) : R :=
  all_subfaces m (fun iv j => match face_at m iv j with Some b => if (b =? a)%nat then F iv j else 0 | None => 0 end).

Record good_recover (p : recover) (u : list R) : Prop := {
  gr_u : length u = length (rocks (t_mesh (r_mesh p)));
  gr_rho : length (r_rho p) = length (rocks (t_mesh (r_mesh p)));
  gr_gz : length (r_gz p) = length (rocks (t_mesh (r_mesh p)));
  gr_area : length (r_area p) = length (faces (t_mesh (r_mesh p)))
}.
(** Pressure plus weight of the column below, of a cell. *)
Definition head (p : recover) (u : list R) (c : nat) : R := nth c u 0 + nth c (r_rho p) 0 * nth c (r_gz p) 0.
(** [B] gives, by boundary number, the pressure prescribed on the boundary; or, if
    none is, the head of the cell inside. *)
Definition boundary_heads (p : recover) (u : list R) (B : nat -> R) : Prop :=
  match r_pressure p with
  | Some h => forall b, B b = h b
  | None => forall iv v e i c s f, nth_error (verts (t_mesh (r_mesh p))) iv = Some v -> nth_error (t_extra (r_mesh p)) iv = Some e ->
      nth_error (x_cells v) i = Some c -> nth_error (e_sub e Pressure) i = Some s -> In f (sfaces s) -> sf_internal f = false ->
      B (sf_bnd f) = head p u c
  end.
Definition heads (p : recover) (u : list R) (B : nat -> R) (c : nat) : R :=
  if (c <? length (rocks (t_mesh (r_mesh p))))%nat then head p u c else B (c - length (rocks (t_mesh (r_mesh p))))%nat.

(** A corner of the mesh touches face [a]. *)
Definition at_corner (M : tmesh) (a : nat) : Prop :=
  exists iv v e, nth_error (verts (t_mesh M)) iv = Some v /\ nth_error (t_extra M) iv = Some e /\ corner v e /\ In a (x_faces v).
(** +1 when cell [i] is on the up side of face [f], -1 when on the down side. *)
Definition out_of (f : face) (i : nat) : R := coeff (f_up f =? Z.of_nat i)%Z - coeff (f_dn f =? Z.of_nat i)%Z.
(** -1 at corners. *)
Definition corner_sign (M : tmesh) (iv : nat) : R :=
  match nth_error (verts (t_mesh M)) iv, nth_error (t_extra M) iv with
  | Some v, Some e => if negb (e_nbnd e =? 0)%nat && (length (x_cells v) <=? 1)%nat then -1 else 1
  | _, _ => 1
  end.
