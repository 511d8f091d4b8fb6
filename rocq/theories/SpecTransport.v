(** Specification vocabulary for the residuals with two unknowns per cell. *)
From Coq Require Import Reals ZArith List Bool.
From Coquelicot Require Import Coquelicot.
From Verif Require Import Prelude Mpfao SpecFvtpf MpfaoTs SpecMpfaoTs Transport.
Import ListNotations.
Local Open Scope R_scope.

(** [r] holds the residual [w i] of the water and [x i] of the second equation of
    each of the [n] owned cells. *)
Definition two_equations (r : list fl) (n : nat) (w x : nat -> R) : Prop :=
  length r = (2 * n)%nat /\ forall i, (i < n)%nat -> nth_error r (2 * i) = Some (Some (w i)) /\ nth_error r (2 * i + 1) = Some (Some (x i)).

(** Net outflow of cell [i] for the flux [q]. *)
Definition outflow (m : mesh) (q : nat -> nat -> R) (i : nat) : R := all_subfaces m (fun iv j => orientation m iv j i * q iv j).

(** A property of the flux pair of every active sub-face: [F up dn zup zdn a] of its
    sides and its position in the sub-face arrays. *)
Definition on_faces (m : mesh) (cs : list cell) (bs : list bnd) (F : side -> side -> Z -> Z -> nat -> R -> Prop) (q : nat -> nat -> R) : Prop :=
  forall iv j v f a up dn, subface m iv j = Some (v, f, a) -> active v f = true ->
    at_side cs bs (f_up f) up -> at_side cs bs (f_dn f) dn -> F up dn (f_up f) (f_dn f) a (q iv j).

(** ** Salt *)

(** Concentration on side [z]: that of the cell or of the boundary face. *)
Definition side_value (vals bnd_vals : list R) (z : Z) : R :=
  if (0 <=? z)%Z then nth (Z.to_nat z) vals 0 else nth (Z.to_nat (- z - 1)) bnd_vals 0.

(** Darcy's law with gravity: - density x mobility of the upstream side x drive. *)
Definition darcy (TP GD : list R) (up dn : side) (zup zdn : Z) (a : nat) (q : R) : Prop :=
  let d := drive up dn (nth a TP 0) (nth a GD 0) in
  q = - mean_density up dn * mobility (if Rlt_dec d 0 then up else dn) * d.
(** Salt carried by the water flux [w], positive from up to down, plus diffusion. *)
Definition carried (conc bconc TPsi : list R) (w : R) (up dn : side) (zup zdn : Z) (a : nat) (q : R) : Prop :=
  q = side_value conc bconc (if Rlt_dec 0 w then zup else zdn) * w - mean_density up dn * nth a TPsi 0.

(** Stored water and salt. *)
Definition stored_salt (c : cell) (k : rock) (psi : R) : R := stored c k * psi.

(** The two fluxes that salinity_flux defines. *)
Definition saline_water (TP GD : list R) (up dn : side) (zup zdn : Z) (a : nat) (q : R) : Prop :=
  let tp := nth a TP 0 in
  q = - mean_density up dn * mobility (if Rlt_dec tp 0 then up else dn) * drive up dn tp (nth a GD 0).
Definition saline_salt (TP TPsi : list R) (up dn : side) (zup zdn : Z) (a : nat) (q : R) : Prop :=
  let tp := nth a TP 0 in
  q = - mean_density up dn * mobility (if Rlt_dec tp 0 then up else dn) * tp - mean_density up dn * nth a TPsi 0.

(** ** Heat *)

(** Values too small to matter to the code. *)
Definition negligible (x : R) : Prop := Rabs x < / 2 ^ 52.
Definition rounded (x : R) : R := if Rlt_dec (Rabs x) (/ 2 ^ 52) then 0 else x.
(** Water flux without gravity. *)
Definition th_water (TP : list R) (up dn : side) (zup zdn : Z) (a : nat) (q : R) : Prop :=
  let tp := rounded (nth a TP 0) in
  q = - mean_density up dn * mobility (if Rlt_dec tp 0 then up else dn) * tp.
(** Heat carried by the water from the side it comes from, plus conduction. *)
Definition th_energy (hs : list heat) (hb : list R) (TP TT : list R) (up dn : side) (zup zdn : Z) (a : nat) (q : R) : Prop :=
  let tp := rounded (nth a TP 0) in
  q = - mean_density up dn * mobility (if Rlt_dec tp 0 then up else dn) * tp * side_value (map e_h hs) hb (if Rlt_dec tp 0 then zup else zdn)
      - rounded (nth a TT 0).

Definition stored_energy (c : cell) (e : heat) (k : rock) (T : R) : R :=
  (c_rho c * k_por k * c_S c * e_u e + e_rho_soil e * e_c_soil e * (1 - k_por k) * T) * k_vol k.

(** Rates of change of both for the rates [p'] and [t'] of pressure and temperature,
    according to the stored derivatives. *)
Definition water_rate (c : cell) (e : heat) (k : rock) (p' t' : R) : R :=
  ((c_drho c * p' + e_drho_dT e * t') * c_S c + c_rho c * (c_dS c * p' + e_dS_dT e * t')) * k_por k * k_vol k.
Definition energy_rate (c : cell) (e : heat) (k : rock) (p' t' : R) : R :=
  (((c_drho c * p' + e_drho_dT e * t') * c_S c + c_rho c * (c_dS c * p' + e_dS_dT e * t')) * k_por k * e_u e
   + c_rho c * k_por k * c_S c * (e_du_dP e * p' + e_du_dT e * t') + e_rho_soil e * e_c_soil e * (1 - k_por k) * t') * k_vol k.
Definition term2 (m : mesh) (cs : list cell) (hs : list heat) (w : nat -> cell -> heat -> rock -> R) (i : nat) : R :=
  match nth_error hs i with Some e => term m cs (fun i c k => w i c e k) i | None => 0 end.
