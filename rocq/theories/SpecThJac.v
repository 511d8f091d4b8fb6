(** Specification vocabulary for the Jacobian of the water and heat mode. *)
From Coq Require Import Reals ZArith List Bool.
From Coquelicot Require Import Coquelicot.
From Verif Require Import Prelude Mpfao SpecFvtpf MpfaoTs SpecMpfaoTs Transport SpecTransport.
From Verif Require Fvtpf.
Import ListNotations.
Local Open Scope R_scope.

(** No sub-face of cell [i] is on the boundary. *)
Definition inside (m : mesh) (i : nat) : Prop :=
  forall iv j v f a, subface m iv j = Some (v, f, a) -> f_up f = Z.of_nat i \/ f_dn f = Z.of_nat i -> (0 <= f_up f)%Z /\ (0 <= f_dn f)%Z.
(** Between two cells, the flow is not so small that the code ignores it. *)
Definition flowing (m : mesh) (TP : list R) : Prop :=
  forall iv j v f a, subface m iv j = Some (v, f, a) -> active v f = true -> (0 <= f_up f)%Z -> (0 <= f_dn f)%Z -> / 2 ^ 52 < Rabs (nth a TP 0).

(** A cell that varies with its pressure: the stored derivatives are right, [dh] is the
    one of the enthalpy; the derivatives by the temperature and those of the inner energy
    do not change (the code takes their derivatives as 0). *)
Definition heat_by_pressure (e : R -> heat) (p dh : R) : Prop :=
  is_derive (fun x => e_h (e x)) p dh
  /\ is_derive (fun x => e_u (e x)) p (e_du_dP (e p))
  /\ is_derive (fun x => e_du_dP (e x)) p 0 /\ is_derive (fun x => e_du_dT (e x)) p 0
  /\ is_derive (fun x => e_drho_dT (e x)) p 0 /\ is_derive (fun x => e_dS_dT (e x)) p 0
  /\ (forall x, e_rho_soil (e x) = e_rho_soil (e p) /\ e_c_soil (e x) = e_c_soil (e p) /\ e_src (e x) = e_src (e p)).
(** The same for a cell that varies with its temperature. *)
Definition water_by_temperature (c : R -> cell) (e : R -> heat) (T : R) : Prop :=
  is_derive (fun x => c_rho (c x)) T (e_drho_dT (e T)) /\ is_derive (fun x => c_S (c x)) T (e_dS_dT (e T))
  /\ is_derive (fun x => c_drho (c x)) T 0 /\ is_derive (fun x => c_dS (c x)) T 0
  /\ is_derive (fun x => e_drho_dT (e x)) T 0 /\ is_derive (fun x => e_dS_dT (e x)) T 0.
Definition heat_by_temperature (e : R -> heat) (T : R) : Prop :=
  is_derive (fun x => e_u (e x)) T (e_du_dT (e T)) /\ is_derive (fun x => e_du_dP (e x)) T 0 /\ is_derive (fun x => e_du_dT (e x)) T 0
  /\ (forall x, e_rho_soil (e x) = e_rho_soil (e T) /\ e_c_soil (e x) = e_c_soil (e T)).

(** Entry (row, col) of [B] is within [err] of the derivative of [g] at [p]. *)
Definition near_derivative (B : Fvtpf.matrix) (row col : nat) (g : R -> fl) (p err : R) : Prop :=
  exists d d', Fvtpf.entry B (Z.of_nat row) (Z.of_nat col) = Some d /\ has_derivative g p d' /\ Rabs (d - d') <= err.
(** Number of active sub-faces of cell [i]. *)
Definition subfaces_of (m : mesh) (i : nat) : R := all_subfaces m (fun iv j => Rabs (orientation m iv j i)).
(** The cells of the vertices exist, every face has a cell. *)
Definition cells_exist (m : mesh) (N : nat) : Prop :=
  (forall v, In v (verts m) -> forall c, In c (x_cells v) -> (c < N)%nat) /\ (forall f, In f (faces m) -> (0 <= f_up f)%Z \/ (0 <= f_dn f)%Z).

(** What a flux takes from a cell, by the cell's temperature: [t] holds the derivatives
    of the viscosity and the enthalpy. *)
Definition flux_by_temperature (c : R -> cell) (e : R -> heat) (dvis dh T : R) : Prop :=
  is_derive (fun x => c_rho (c x)) T (e_drho_dT (e T)) /\ is_derive (fun x => c_vis (c x)) T dvis /\ c_vis (c T) <> 0
  /\ is_derive (fun x => c_Kr (c x)) T (c_dKr (c T) * e_dS_dT (e T)) /\ is_derive (fun x => e_h (e x)) T dh.
(** The two fluxes of an outcome. *)
Definition fluxes (first : bool) (o : outcome (fl * fl)) : fl := match o with Ok q => if first then fst q else snd q | _ => None end.
