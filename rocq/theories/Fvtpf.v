(** Model of the two-point flux (FV-TPF) residual and Jacobian,
    src/fv/fvtpf/tdyfvtpf_snes.c and src/fv/fvtpf/tdyfvtpf.c.

    The state arrays (fvtpf->pressure, rho, ...) hold finite numbers; divisions can
    still produce non-finite results (see [fl]).  Out-parameters are modelled by
    their previous contents, as in Eos.v.  Timers, VecGetArray/RestoreArray and the
    communication of TDyGlobalToLocal are not modelled: the functions start from
    the local arrays. *)
From Coq Require Import Reals ZArith List Bool Arith.
From Verif Require Import Prelude Arrays.
Import ListNotations.
Local Open Scope R_scope.

Definition vec3 : Type := (R * R * R)%type.
Definition dot (a b : vec3) : R :=
  let '(a0, a1, a2) := a in let '(b0, b1, b2) := b in a0 * b0 + a1 * b1 + a2 * b2.

(** The per-cell arrays of TDyFVTPF updated by TDyUpdateState
    (include/private/tdyfvtpfimpl.h). *)
Record cell := mkCell {
  c_P : R;      (* pressure *)
  c_rho : R; c_drho : R;      (* rho, drho_dP *)
  c_vis : R; c_dvis : R;      (* vis, dvis_dP *)
  c_S : R; c_dS : R;          (* S, dS_dP *)
  c_Kr : R; c_dKr : R         (* Kr, dKr_dS *)
}.
(** The per-boundary-face arrays: P_bnd, rho_bnd, vis_bnd, S_bnd, Kr_bnd. *)
Record bnd := mkBnd { b_P : R; b_rho : R; b_vis : R; b_S : R; b_Kr : R }.
(** The per-cell constants: porosity, cells->volume, source_sink, cells->is_local. *)
Record rock := mkRock { k_por : R; k_vol : R; k_src : R; k_local : bool }.

(** TDyBCType, include/tdycore.h:49-53; [OtherBC] is any other value stored in
    faces->bc_type. *)
Inductive bc := Dirichlet | Neumann | Seepage | OtherBC.

(** TDyFace, include/private/tdymeshimpl.h: cell_ids[0..1], is_local, is_internal,
    bc_type, dist_up_dn[0..1], unit_vec_up_dn, projected_area. *)
Record face := mkFace {
  f_up : Z; f_dn : Z; f_local : bool; f_internal : bool; f_bc : bc;
  f_dist_up : R; f_dist_dn : R; f_unit : vec3; f_area : R
}.

Record grid := mkGrid {
  faces : list face;
  rocks : list rock;
  K0 : list R;          (* 9 entries per cell, row-major *)
  gravity : vec3;
  Pref : R;
  dtime : R
}.

(** Indexing an array with a PetscInt. *)
Definition at_ {A} (l : list A) (i : Z) : outcome A :=
  if (i <? 0)%Z then UB else rd l (Z.to_nat i).

(** FVTPFCalculateDistances, src/fv/fvtpf/tdyfvtpf.c:713-737: (dist_gravity, upweight). *)
Definition CalculateDistances (g : grid) (f : face) : R * fl :=
  let dist_up := f_dist_up f in
  let dist_dn := f_dist_dn f in
  let upweight :=
    flet ratio := fdiv dist_up (dist_up + dist_dn);
    let up := (dist_up + dist_dn) * ratio in
    let dn := (dist_up + dist_dn) - up in
    fdiv dn (up + dn) in
  (dot (gravity g) (f_unit f) * (dist_up + dist_dn), upweight).

(** FVTPFExtractUpAndDownPermeabilityTensors, src/fv/fvtpf/tdyfvtpf.c:637-668: the
    diagonal entries (only they are used by the caller). *)
Definition diagonal (g : grid) (c : Z) : outcome vec3 :=
  do k0 <- at_ (K0 g) (c * 9 + 0 * 3 + 0);
  do k1 <- at_ (K0 g) (c * 9 + 1 * 3 + 1);
  do k2 <- at_ (K0 g) (c * 9 + 2 * 3 + 2);
  Ok (k0, k1, k2).
Definition ExtractUpAndDown (g : grid) (f : face) : outcome (vec3 * vec3) :=
  if (f_up f <? 0)%Z && (f_dn f <? 0)%Z then Err
  else
    do ku <- diagonal g (if (0 <=? f_up f)%Z then f_up f else f_dn f);
    do kd <- diagonal g (if (0 <=? f_dn f)%Z then f_dn f else f_up f);
    Ok (ku, kd).

(** FVTPFComputeFacePermeabililtyValueTPF, src/fv/fvtpf/tdyfvtpf.c:682-711:
    the value of Kface_value and of Dq. *)
Definition inverse_sum (u k : vec3) : fl :=
  let '(u0, u1, u2) := u in let '(k0, k1, k2) := k in
  flet a := fdiv (u0 ^ 2) k0; flet b := fdiv (u1 ^ 2) k1; flet c := fdiv (u2 ^ 2) k2;
  Some (0 + a + b + c).
Definition face_value (u : vec3) (dist_up dist_dn : R) (Kup Kdn : vec3) : fl :=
  flet su := inverse_sum u Kup; flet sd := inverse_sum u Kdn;
  flet Kup_value := fdiv 1 su; flet Kdn_value := fdiv 1 sd;
  fdiv (Kup_value * Kdn_value) (dist_up * Kdn_value + dist_dn * Kup_value).
Definition ComputeFacePermeability (g : grid) (f : face) : outcome fl :=
  do k <- ExtractUpAndDown g f;
  Ok (face_value (f_unit f) (f_dist_up f) (f_dist_dn f) (fst k) (snd k)).

(** kr_eps, sat_eps and pressure_eps. *)
Definition eps : R := 1 / 100000000.

(** [a > b] and [a < b] on numbers, as C truth values. *)
Definition gt (a b : R) : bool := if Rlt_dec b a then true else false.
Definition lt (a b : R) : bool := if Rlt_dec a b then true else false.
Definition ge (a b : R) : bool := if Rle_dec b a then true else false.

(** [if (S_up < sat_eps) upweight = 0.0; else if (S_dn < sat_eps) upweight = 1.0;],
    repeated in each of the six flux routines (lines 139-143, 194-198, 255-259,
    313-317, 397-401, 477-481). *)
Definition set_weight (S_up S_dn : R) (upweight : fl) : fl :=
  if lt S_up eps then Some 0 else if lt S_dn eps then Some 1 else upweight.

(** RichardsResidual, src/fv/fvtpf/tdyfvtpf_snes.c:118-170, lines 136-167: [up] and
    [dn] are the states of the two cells, [Res] what the out-parameter held before. *)
Definition richards_flux (dist_gravity : R) (upweight Dq : fl) (area : R) (up dn : cell) (Res : fl) : fl :=
  if gt (c_Kr up) eps || gt (c_Kr dn) eps then
    flet w := set_weight (c_S up) (c_S dn) upweight;
    let den_up := c_rho up in
    let den_dn := c_rho dn in
    let den_aveg := w * den_up + (1 - w) * den_dn in
    let gravity_term := den_aveg * dist_gravity in
    let dphi := c_P up - c_P dn - gravity_term in
    let id := if ge dphi 0 then up else dn in
    flet ukvr := fdiv (c_Kr id) (c_vis id);
    flet dq := Dq;
    let v_darcy := dq * ukvr * dphi in
    let q := v_darcy * area in
    Some (q * den_aveg)
  else Res.

Definition RichardsResidual (g : grid) (cs : list cell) (iface : nat) (Res : fl) : outcome fl :=
  do f <- rd (faces g) iface;
  let '(dist_gravity, upweight) := CalculateDistances g f in
  do Dq <- ComputeFacePermeability g f;
  do up <- at_ cs (f_up f);
  do dn <- at_ cs (f_dn f);
  Ok (richards_flux dist_gravity upweight Dq (f_area f) up dn Res).

(** RichardsBCResidual, src/fv/fvtpf/tdyfvtpf_snes.c:173-223. *)
Definition bc_flux (dist_gravity : R) (upweight Dq : fl) (area : R) (up : bnd) (dn : cell) (Res : fl) : fl :=
  if gt (b_Kr up) eps || gt (c_Kr dn) eps then
    flet w := set_weight (b_S up) (c_S dn) upweight;
    let den_up := b_rho up in
    let den_dn := c_rho dn in
    let den_aveg := w * den_up + (1 - w) * den_dn in
    let gravity_term := den_aveg * dist_gravity in
    let dphi := b_P up - c_P dn - gravity_term in
    flet ukvr := (if ge dphi 0 then fdiv (b_Kr up) (b_vis up) else fdiv (c_Kr dn) (c_vis dn));
    flet dq := Dq;
    let v_darcy := dq * ukvr * dphi in
    let q := v_darcy * area in
    Some (q * den_aveg)
  else Res.

Definition RichardsBCResidual (g : grid) (cs : list cell) (bs : list bnd) (iface : nat) (Res : fl) : outcome fl :=
  do f <- rd (faces g) iface;
  let cell_id_up := (- f_up f + 1)%Z in
  let '(dist_gravity, upweight) := CalculateDistances g f in
  do Dq <- ComputeFacePermeability g f;
  do up <- at_ bs cell_id_up;
  do dn <- at_ cs (f_dn f);
  Ok (bc_flux dist_gravity upweight Dq (f_area f) up dn Res).

(** RichardsSeepageBCResidual, src/fv/fvtpf/tdyfvtpf_snes.c:235-290. *)
Definition seepage_flux (Pref dist_gravity : R) (upweight Dq : fl) (area : R) (up : bnd) (dn : cell) (Res : fl) : fl :=
  if gt (b_Kr up) eps || gt (c_Kr dn) eps then
    flet w := set_weight (b_S up) (c_S dn) upweight;
    let den_up := b_rho up in
    let den_dn := c_rho dn in
    let den_aveg := w * den_up + (1 - w) * den_dn in
    let gravity_term := den_aveg * dist_gravity in
    let dphi := b_P up - c_P dn - gravity_term in
    let dphi := if gt dphi 0 && lt (b_P up - Pref) eps then 0 else dphi in
    flet ukvr := (if ge dphi 0 then fdiv (b_Kr up) (b_vis up) else fdiv (c_Kr dn) (c_vis dn));
    flet dq := Dq;
    let v_darcy := dq * ukvr * dphi in
    let q := v_darcy * area in
    Some (q * den_aveg)
  else Res.

Definition RichardsSeepageBCResidual (g : grid) (cs : list cell) (bs : list bnd) (iface : nat) (Res : fl) : outcome fl :=
  do f <- rd (faces g) iface;
  let cell_id_up := (- f_up f - 1)%Z in
  let '(dist_gravity, upweight) := CalculateDistances g f in
  do Dq <- ComputeFacePermeability g f;
  do up <- at_ bs cell_id_up;
  do dn <- at_ cs (f_dn f);
  Ok (seepage_flux (Pref g) dist_gravity upweight Dq (f_area f) up dn Res).

(** TDyFVTPFSNESAccumulation, src/fv/fvtpf/tdyfvtpf_snes.c:11-21. *)
Definition Accumulation (dtime : R) (c : cell) (k : rock) : fl :=
  fdiv (c_rho c * k_por k * c_S c * k_vol k) dtime.

(** [ierr = F(..., &Res);] without CHKERRQ (lines 579, 604, 607, 669, 700, 703): an
    error is ignored and the out-parameter keeps its content. *)
Definition ignore_error {A} (o : outcome A) (before : A) : outcome A :=
  match o with Err => Ok before | _ => o end.

(** [r_ptr[i] += v], [r_ptr[i] -= v]. *)
Definition add_at (r : list fl) (i : Z) (v : fl) : outcome (list fl) :=
  do x <- at_ r i; wr r (Z.to_nat i) (fl2 Rplus x v).
Definition sub_at (r : list fl) (i : Z) (v : fl) : outcome (list fl) :=
  do x <- at_ r i; wr r (Z.to_nat i) (fl2 Rminus x v).

(** [i >= 0 && cells->is_local[i]]. *)
Definition valid_local (g : grid) (i : Z) : outcome bool :=
  if (i <? 0)%Z then Ok false else do k <- at_ (rocks g) i; Ok (k_local k).

(** TDyFVTPFSNESFunction, src/fv/fvtpf/tdyfvtpf_snes.c:567-589: internal faces.
    [junk i] is the content of the automatic variable Res (declared, not
    initialised, on line 578) when face i is reached. *)
Definition internal_face (g : grid) (cs : list cell) (junk : nat -> fl) (iface : nat) (r : list fl) : outcome (list fl) :=
  do f <- rd (faces g) iface;
  if negb (f_local f) then Ok r
  else if negb (f_internal f) then Ok r
  else
    do Res <- ignore_error (RichardsResidual g cs iface (junk iface)) (junk iface);
    do u <- valid_local g (f_up f);
    do r <- (if u then add_at r (f_up f) Res else Ok r);
    do d <- valid_local g (f_dn f);
    (if d then sub_at r (f_dn f) Res else Ok r).

(** Lines 591-616: boundary faces. *)
Definition boundary_face (g : grid) (cs : list cell) (bs : list bnd) (iface : nat) (r : list fl) : outcome (list fl) :=
  do f <- rd (faces g) iface;
  if negb (f_local f) then Ok r
  else if f_internal f then Ok r
  else match f_bc f with
       | Neumann => Ok r
       | Dirichlet => do Res <- ignore_error (RichardsBCResidual g cs bs iface (Some 0)) (Some 0); sub_at r (f_dn f) Res
       | Seepage => do Res <- ignore_error (RichardsSeepageBCResidual g cs bs iface (Some 0)) (Some 0); sub_at r (f_dn f) Res
       | OtherBC => Err
       end.

(** Lines 618-628: accumulation and sources. *)
Definition accumulation_cell (g : grid) (cs : list cell) (accum_prev : list R) (icell : nat) (r : list fl) : outcome (list fl) :=
  do k <- rd (rocks g) icell;
  if negb (k_local k) then Ok r
  else
    do c <- rd cs icell;
    do prev <- rd accum_prev icell;
    do r <- add_at r (Z.of_nat icell) (fl1 (fun a => a - prev) (Accumulation (dtime g) c k));
    sub_at r (Z.of_nat icell) (Some (k_src k)).

(** TDyFVTPFSNESFunction, lines 561-631, for a residual vector of [n] entries
    (zeroed on line 550) and the state left by TDyUpdateState and
    TDyFVTPFUpdateBoundaryState. *)
Definition SNESFunction (g : grid) (cs : list cell) (bs : list bnd) (accum_prev : list R) (junk : nat -> fl) (n : nat) : outcome (list fl) :=
  do r <- for_ (length (faces g)) (internal_face g cs junk) (repeat (Some 0) n);
  do r <- for_ (length (faces g)) (boundary_face g cs bs) r;
  for_ (length (rocks g)) (accumulation_cell g cs accum_prev) r.

(** ** Jacobian *)

(** [PetscPowReal(vis,2.0)]: total for every finite [vis]. *)
Definition dukvr (c : cell) : fl :=
  flet a := fdiv (c_dKr c * c_dS c) (c_vis c);
  flet b := fdiv (c_Kr c * c_dvis c) (c_vis c ^ 2);
  Some (a - b).

(** RichardsJacobian, src/fv/fvtpf/tdyfvtpf_snes.c:293-374: (Jup, Jdn). *)
Definition richards_jacobian (dist_gravity : R) (upweight Dq : fl) (area : R) (up dn : cell) (J : fl * fl) : fl * fl :=
  if gt (c_Kr up) eps || gt (c_Kr dn) eps then
    match (
      flet w := set_weight (c_S up) (c_S dn) upweight;
      let den_aveg := w * c_rho up + (1 - w) * c_rho dn in
      let dden_ave_dp_up := w * c_drho up in
      let dden_ave_dp_dn := (1 - w) * c_drho dn in
      let gravity_term := den_aveg * dist_gravity in
      let dgravity_dden_up := w * dist_gravity in
      let dgravity_dden_dn := (1 - w) * dist_gravity in
      let dphi := c_P up - c_P dn - gravity_term in
      let dphi_dp_up := 1 - dgravity_dden_up * c_drho up in
      let dphi_dp_dn := -1 - dgravity_dden_dn * c_drho dn in
      let id := if ge dphi 0 then up else dn in
      flet ukvr := fdiv (c_Kr id) (c_vis id);
      flet d := dukvr id;
      let dukvr_dp_up := if ge dphi 0 then d else 0 in
      let dukvr_dp_dn := if ge dphi 0 then 0 else d in
      flet dq := Dq;
      let v_darcy := dq * ukvr * dphi in
      let q := v_darcy * area in
      let dq_dp_up := dq * (dukvr_dp_up * dphi + ukvr * dphi_dp_up) * area in
      let dq_dp_dn := dq * (dukvr_dp_dn * dphi + ukvr * dphi_dp_dn) * area in
      Some (dq_dp_up * den_aveg + q * dden_ave_dp_up, dq_dp_dn * den_aveg + q * dden_ave_dp_dn))
    with Some (a, b) => (Some a, Some b) | None => (None, None) end
  else J.

Definition RichardsJacobian (g : grid) (cs : list cell) (iface : nat) (J : fl * fl) : outcome (fl * fl) :=
  do f <- rd (faces g) iface;
  let '(dist_gravity, upweight) := CalculateDistances g f in
  do Dq <- ComputeFacePermeability g f;
  do up <- at_ cs (f_up f);
  do dn <- at_ cs (f_dn f);
  Ok (richards_jacobian dist_gravity upweight Dq (f_area f) up dn J).

(** RichardsBCJacobian, src/fv/fvtpf/tdyfvtpf_snes.c:377-444: Jdn.  In the inflow
    branch (417-418) ukvr stays 0. *)
Definition bc_jacobian (dist_gravity : R) (upweight Dq : fl) (area : R) (up : bnd) (dn : cell) (J : fl) : fl :=
  if gt (b_Kr up) eps || gt (c_Kr dn) eps then
    flet w := set_weight (b_S up) (c_S dn) upweight;
    let den_aveg := w * b_rho up + (1 - w) * c_rho dn in
    let dden_ave_dp_dn := (1 - w) * c_drho dn in
    let gravity_term := den_aveg * dist_gravity in
    let dgravity_dden_dn := w * dist_gravity in
    let dphi := b_P up - c_P dn - gravity_term in
    let dphi_dp_dn := -1 - dgravity_dden_dn * dden_ave_dp_dn in
    flet ukvr := (if ge dphi 0 then Some 0 else fdiv (c_Kr dn) (c_vis dn));
    flet dukvr_dp_dn := (if ge dphi 0 then Some 0 else dukvr dn);
    flet dq := Dq;
    let v_darcy := dq * ukvr * dphi in
    let q := v_darcy * area in
    let dq_dp_dn := dq * (dukvr_dp_dn * dphi + ukvr * dphi_dp_dn) * area in
    Some (dq_dp_dn * den_aveg + q * dden_ave_dp_dn)
  else J.

Definition RichardsBCJacobian (g : grid) (cs : list cell) (bs : list bnd) (iface : nat) (J : fl) : outcome fl :=
  do f <- rd (faces g) iface;
  let cell_id_up := (- f_up f - 1)%Z in
  let '(dist_gravity, upweight) := CalculateDistances g f in
  do Dq <- ComputeFacePermeability g f;
  do up <- at_ bs cell_id_up;
  do dn <- at_ cs (f_dn f);
  Ok (bc_jacobian dist_gravity upweight Dq (f_area f) up dn J).

(** RichardsSeepageBCJacobian, src/fv/fvtpf/tdyfvtpf_snes.c:457-530: Jdn. *)
Definition seepage_jacobian (Pref dist_gravity : R) (upweight Dq : fl) (area : R) (up : bnd) (dn : cell) (J : fl) : fl :=
  if gt (b_Kr up) eps || gt (c_Kr dn) eps then
    flet w := set_weight (b_S up) (c_S dn) upweight;
    let den_aveg := w * b_rho up + (1 - w) * c_rho dn in
    let dden_ave_dp_dn := (1 - w) * c_drho dn in
    let gravity_term := den_aveg * dist_gravity in
    let dgravity_dden_dn := w * dist_gravity in
    let dphi := b_P up - c_P dn - gravity_term in
    let dphi_dp_dn := -1 - dgravity_dden_dn * dden_ave_dp_dn in
    let inflow := ge dphi 0 in
    let blocked := inflow && lt (b_P up - Pref) eps in
    flet ukvr := (if inflow then fdiv (b_Kr up) (b_vis up) else fdiv (c_Kr dn) (c_vis dn));
    flet dukvr_dp_dn := (if inflow then Some 0 else dukvr dn);
    let dphi := if blocked then 0 else dphi in
    let dphi_dp_dn := if blocked then 0 else dphi_dp_dn in
    flet dq := Dq;
    let v_darcy := dq * ukvr * dphi in
    let q := v_darcy * area in
    let dq_dp_dn := dq * (dukvr_dp_dn * dphi + ukvr * dphi_dp_dn) * area in
    Some (dq_dp_dn * den_aveg + q * dden_ave_dp_dn)
  else J.

Definition RichardsSeepageBCJacobian (g : grid) (cs : list cell) (bs : list bnd) (iface : nat) (J : fl) : outcome fl :=
  do f <- rd (faces g) iface;
  let cell_id_up := (- f_up f - 1)%Z in
  let '(dist_gravity, upweight) := CalculateDistances g f in
  do Dq <- ComputeFacePermeability g f;
  do up <- at_ bs cell_id_up;
  do dn <- at_ cs (f_dn f);
  Ok (seepage_jacobian (Pref g) dist_gravity upweight Dq (f_area f) up dn J).

(** TDyFVTPFSNESJacobianAccumulation, src/fv/fvtpf/tdyfvtpf_snes.c:23-42. *)
Definition JacobianAccumulation (dtime : R) (c : cell) (k : rock) : fl :=
  let dpor_dP := 0 in
  flet vol_over_dt := fdiv (k_vol k) dtime;
  Some ((c_drho c * k_por k * c_S c + c_rho c * dpor_dP * c_S c + c_rho c * k_por k * c_dS c) * vol_over_dt).

(** A matrix under assembly: the contributions (row, column, value) passed to
    MatSetValuesLocal with ADD_VALUES since MatZeroEntries. *)
Definition matrix := list (Z * Z * fl).
Definition entry (A : matrix) (i j : Z) : fl :=
  fold_right (fun t s => if (fst (fst t) =? i)%Z && (snd (fst t) =? j)%Z then fl2 Rplus (snd t) s else s) (Some 0) A.

(** TDyFVTPFSNESJacobian, lines 657-684; [junk i]: Jup and Jdn before face i. *)
Definition jac_internal_face (g : grid) (cs : list cell) (junk : nat -> fl * fl) (iface : nat) (B : matrix) : outcome matrix :=
  do f <- rd (faces g) iface;
  if negb (f_local f) then Ok B
  else if negb (f_internal f) then Ok B
  else
    do J <- ignore_error (RichardsJacobian g cs iface (junk iface)) (junk iface);
    let '(Jup, Jdn) := J in
    do u <- valid_local g (f_up f);
    let B := if u then (f_up f, f_up f, Jup) :: (f_up f, f_dn f, Jdn) :: B else B in
    do d <- valid_local g (f_dn f);
    Ok (if d then (f_dn f, f_dn f, fl1 Ropp Jdn) :: (f_dn f, f_up f, fl1 Ropp Jup) :: B else B).

(** Lines 686-716; [junk i]: Jdn before face i. *)
Definition jac_boundary_face (g : grid) (cs : list cell) (bs : list bnd) (junk : nat -> fl) (iface : nat) (B : matrix) : outcome matrix :=
  do f <- rd (faces g) iface;
  if negb (f_local f) then Ok B
  else if f_internal f then Ok B
  else
    let finish (Jdn : fl) :=
      do d <- valid_local g (f_dn f);
      Ok (if d then (f_dn f, f_dn f, fl1 Ropp Jdn) :: B else B) in
    match f_bc f with
    | Neumann => Ok B
    | Dirichlet => do J <- ignore_error (RichardsBCJacobian g cs bs iface (junk iface)) (junk iface); finish J
    | Seepage => do J <- ignore_error (RichardsSeepageBCJacobian g cs bs iface (junk iface)) (junk iface); finish J
    | OtherBC => Err
    end.

(** Lines 718-727. *)
Definition jac_accumulation (g : grid) (cs : list cell) (icell : nat) (B : matrix) : outcome matrix :=
  do k <- rd (rocks g) icell;
  if negb (k_local k) then Ok B
  else do c <- rd cs icell; Ok ((Z.of_nat icell, Z.of_nat icell, JacobianAccumulation (dtime g) c k) :: B).

Definition SNESJacobian (g : grid) (cs : list cell) (bs : list bnd) (junk : nat -> fl * fl) (junk_bnd : nat -> fl) : outcome matrix :=
  do B <- for_ (length (faces g)) (jac_internal_face g cs junk) [];
  do B <- for_ (length (faces g)) (jac_boundary_face g cs bs junk_bnd) B;
  for_ (length (rocks g)) (jac_accumulation g cs) B.
