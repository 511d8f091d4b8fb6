(** Model of the residuals with two unknowns per cell of the multi-point flux
    scheme: src/fv/mpfao/tdympfao_snes_salinity.c (water and salt) and
    src/fv/mpfao/tdympfao_th_ts.c:19-297 (water and heat).

    As in MpfaoTs.v the functions start from the local arrays: the state, the
    boundary arrays and the products TtimesP_vec, TtimesPsi_vec, Temp_TtimesP_vec,
    GravDisVec.  Vectors hold entry 2 i for the water and 2 i + 1 for the second
    equation of cell i. *)
From Coq Require Import Reals ZArith List Bool Arith.
From Verif Require Import Prelude Arrays MpfaoTs.
From Verif Require Fvtpf.
Import ListNotations.
Local Open Scope R_scope.

(** ** One sub-face of one vertex

    tdympfao_snes_salinity.c:136-206, tdympfao_th_ts.c:63-132: both have this
    structure, with their own pair of fluxes. *)
Definition row2 (m : mesh) (flux : Z -> Z -> nat -> outcome (fl * fl)) (v : vert) (irow : nat) (r : list fl) : outcome (list fl) :=
  do face_id <- rd (x_faces v) irow;
  do subface_id <- rd (x_subs v) irow;
  do f <- rd (faces m) face_id;
  if negb (f_local f) then Ok r
  else
    do q <- flux (f_up f) (f_dn f) (face_id * 4 + subface_id)%nat;
    do u <- valid_local m (f_up f);
    do r <- (if u then do r <- Fvtpf.add_at r (f_up f * 2) (fst q); Fvtpf.add_at r (f_up f * 2 + 1) (snd q) else Ok r);
    do d <- valid_local m (f_dn f);
    (if d then do r <- Fvtpf.sub_at r (f_dn f * 2) (fst q); Fvtpf.sub_at r (f_dn f * 2 + 1) (snd q) else Ok r).
Definition rows2 (m : mesh) (flux : Z -> Z -> nat -> outcome (fl * fl)) (iv : nat) (r : list fl) : outcome (list fl) :=
  do v <- rd (verts m) iv;
  if negb (x_local v) then Ok r else for_ (length (x_faces v)) (row2 m flux v) r.
Definition Vertices2 (m : mesh) (flux : Z -> Z -> nat -> outcome (fl * fl)) (r : list fl) : outcome (list fl) :=
  for_ (length (verts m)) (rows2 m flux) r.

(** ** Salinity *)

(** TDyMPFAOIFunction_Vertices_Salinity, tdympfao_snes_salinity.c:144-196. *)
Definition salinity_flux (cs : list cell) (bs : list bnd) (TP TPsi GD : list R) (zup zdn : Z) (a : nat) : outcome (fl * fl) :=
  do tp <- rd TP a;
  do tpsi <- rd TPsi a;
  do up <- side_at cs bs zup;
  do dn <- side_at cs bs zdn;
  let s := if Rlt_dec tp 0 then up else dn in
  let ukvr := fdiv (Kr s) (vis s) in
  let den_aveg := (0 + rho up + rho dn) * 0.5 in
  do G <- rd GD a;
  Ok (flet k := ukvr; Some (den_aveg * (k * (- tp)) + - den_aveg ^ 2 * k * G),
      flet k := ukvr; Some (den_aveg * (k * (- tp)) + - den_aveg * tpsi)).

(** TDyMPFAOSNESAccumulationMass 20-33 and TDyMPFAOSNESAccumulationTransport 35-48. *)
Definition SNESAccumulationMass (dtime : R) (c : cell) (k : rock) : fl :=
  fdiv (c_rho c * k_por k * c_S c * k_vol k) dtime.
Definition SNESAccumulationTransport (dtime : R) (c : cell) (k : rock) (Psi : R) : fl :=
  fdiv (c_rho c * k_por k * c_S c * Psi * k_vol k) dtime.

(** TDyMPFAOSNESPreSolve_Salinity, lines 68-81, after the state update. *)
Definition presolve_cell (m : mesh) (cs : list cell) (dtime : R) (U : list R) (icell : nat) (a : list fl) : outcome (list fl) :=
  do k <- rd (rocks m) icell;
  if negb (k_local k) then Ok a
  else
    do c <- rd cs icell;
    do a <- wr a (icell * 2) (SNESAccumulationMass dtime c k);
    do psi <- rd U (icell * 2 + 1);
    wr a (icell * 2 + 1) (SNESAccumulationTransport dtime c k psi).
Definition PreSolve_Salinity (m : mesh) (cs : list cell) (dtime : R) (U : list R) (accum_prev : list fl) : outcome (list fl) :=
  for_ (length (rocks m)) (presolve_cell m cs dtime U) accum_prev.

(** TDyMPFAOSNESFunction_Salinity, lines 220-305.  [soln]: the local vector,
    [salt_src]: salinity_source_sink. *)
Definition salinity_cell (m : mesh) (cs : list cell) (dtime : R) (soln : list R) (salt_src : list R) (accum_prev : list fl) (icell : nat) (r : list fl) : outcome (list fl) :=
  do k <- rd (rocks m) icell;
  if negb (k_local k) then Ok r
  else
    do c <- rd cs icell;
    do psi <- rd soln (icell * 2 + 1);
    do prev <- rd accum_prev (icell * 2);
    do r <- Fvtpf.add_at r (Z.of_nat (icell * 2)) (fl2 Rminus (SNESAccumulationMass dtime c k) prev);
    do r <- Fvtpf.sub_at r (Z.of_nat (icell * 2)) (Some (k_src k));
    do prev <- rd accum_prev (icell * 2 + 1);
    do r <- Fvtpf.add_at r (Z.of_nat (icell * 2 + 1)) (fl2 Rminus (SNESAccumulationTransport dtime c k psi) prev);
    do src <- rd salt_src icell;
    Fvtpf.sub_at r (Z.of_nat (icell * 2 + 1)) (Some src).
Definition SNESFunction_Salinity (m : mesh) (cs : list cell) (bs : list bnd) (TP TPsi GD : list R) (dtime : R) (soln salt_src : list R)
    (accum_prev : list fl) (n : nat) : outcome (list fl) :=
  do r <- Vertices2 m (salinity_flux cs bs TP TPsi GD) (repeat (Some 0) (n * 2));
  for_ (length (rocks m)) (salinity_cell m cs dtime soln salt_src accum_prev) r.

(** ** Water and heat *)

(** Per-cell arrays h, u, du_dP, du_dT, drho_dT, dS_dT, rho_soil, c_soil and
    energy_source_sink. *)
Record heat := mkHeat {
  e_h : R; e_u : R; e_du_dP : R; e_du_dT : R; e_drho_dT : R; e_dS_dT : R; e_rho_soil : R; e_c_soil : R; e_src : R
}.
(** h of a cell, h_bnd of a boundary face. *)
Definition enthalpy_at (hs : list heat) (hb : list R) (z : Z) : outcome R :=
  if (0 <=? z)%Z then do e <- Fvtpf.at_ hs z; Ok (e_h e) else Fvtpf.at_ hb (- z - 1).

(** PETSC_MACHINE_EPSILON in double precision. *)
Definition epsilon : R := / 2 ^ 52.
Definition chop (x : R) : R := if Rlt_dec (Rabs x) epsilon then 0 else x.

(** TDyMPFAOIFunction_Vertices_TH, tdympfao_th_ts.c:71-122. *)
Definition th_flux (cs : list cell) (bs : list bnd) (hs : list heat) (hb : list R) (TP TT : list R) (zup zdn : Z) (a : nat) : outcome (fl * fl) :=
  do tp <- rd TP a;
  do tq <- rd TT a;
  let tp := chop tp in
  let tq := chop tq in
  do up <- side_at cs bs zup;
  do dn <- side_at cs bs zdn;
  let s := if Rlt_dec tp 0 then up else dn in
  let ukvr := fdiv (Kr s) (vis s) in
  do uh <- enthalpy_at hs hb (if Rlt_dec tp 0 then zup else zdn);
  let den := (0 + rho up + rho dn) * 0.5 in
  Ok (flet k := ukvr; Some (den * (k * (- tp))),
      flet k := ukvr; Some (den * (k * (- tp)) * uh + - tq)).

(** Lines 238-281; dporosity_dP = dporosity_dT = 0. *)
Definition th_dmass_dT (c : cell) (e : heat) (k : rock) : R :=
  c_rho c * 0 * c_S c + e_drho_dT e * k_por k * c_S c + c_rho c * k_por k * e_dS_dT e.
Definition th_denergy_dP (c : cell) (e : heat) (k : rock) (temp : R) : R :=
  c_drho c * k_por k * c_S c * e_u e + c_rho c * 0 * c_S c * e_u e + c_rho c * k_por k * c_dS c * e_u e
  + c_rho c * k_por k * c_S c * e_du_dP e + e_rho_soil e * e_c_soil e * (- 0) * temp.
Definition th_denergy_dT (c : cell) (e : heat) (k : rock) (temp : R) : R :=
  e_drho_dT e * k_por k * c_S c * e_u e + c_rho c * 0 * c_S c * e_u e + c_rho c * k_por k * e_dS_dT e * e_u e
  + c_rho c * k_por k * c_S c * e_du_dT e + e_rho_soil e * e_c_soil e * (- 0) * temp + e_rho_soil e * e_c_soil e * (1 - k_por k).

(** One pass of the loop of lines 233-286. *)
Definition th_cell (m : mesh) (cs : list cell) (hs : list heat) (dp_dt dtemp_dt temp : list R) (k : rock) (icell : nat) (r : list fl) : outcome (list fl) :=
  do c <- rd cs icell;
  do e <- rd hs icell;
  do p' <- rd dp_dt icell;
  do t' <- rd dtemp_dt icell;
  do t <- rd temp icell;
  do r <- Fvtpf.add_at r (Z.of_nat (icell * 2)) (Some (dmass_dP c k * p' * k_vol k + th_dmass_dT c e k * t' * k_vol k));
  do r <- Fvtpf.add_at r (Z.of_nat (icell * 2 + 1)) (Some (th_denergy_dP c e k t * p' * k_vol k + th_denergy_dT c e k t * t' * k_vol k));
  do r <- Fvtpf.sub_at r (Z.of_nat (icell * 2)) (Some (k_src k * k_vol k));
  Fvtpf.sub_at r (Z.of_nat (icell * 2 + 1)) (Some (e_src e * k_vol k)).
(** The loop ends at the first cell that is not local (line 235: break). *)
Fixpoint th_cells (m : mesh) (cs : list cell) (hs : list heat) (dp_dt dtemp_dt temp : list R) (fuel icell : nat) (r : list fl) : outcome (list fl) :=
  match fuel with
  | O => Ok r
  | S fuel =>
      do k <- rd (rocks m) icell;
      if negb (k_local k) then Ok r
      else do r <- th_cell m cs hs dp_dt dtemp_dt temp k icell r; th_cells m cs hs dp_dt dtemp_dt temp fuel (S icell) r
  end.

(** Lines 219-223: dp_dt, dtemp_dt and temp of all cells, ghosts included;
    [off] is 0 or 1. *)
Definition component_of (off : nat) (u : list R) (c : nat) (out : list R) : outcome (list R) := do x <- rd u (c * 2 + off); Ok (out ++ [x]).
Definition unpack (off : nat) (u : list R) (ncells : nat) : outcome (list R) := for_ ncells (component_of off u) [].

(** TDyMPFAOIFunction_TH, lines 148-297.  [du_dt] is the array of the global
    vector U_t, [u_p] that of the local vector. *)
Definition IFunction_TH (m : mesh) (cs : list cell) (bs : list bnd) (hs : list heat) (hb : list R) (TP TT : list R) (du_dt u_p : list R) (n : nat) : outcome (list fl) :=
  do r <- Vertices2 m (th_flux cs bs hs hb TP TT) (repeat (Some 0) (n * 2));
  do dp_dt <- unpack 0 du_dt (length (rocks m));
  do dtemp_dt <- unpack 1 du_dt (length (rocks m));
  do temp <- unpack 1 u_p (length (rocks m));
  th_cells m cs hs dp_dt dtemp_dt temp (length (rocks m)) 0 r.
