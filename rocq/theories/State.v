(** Model of the functions that compute the state of every cell from the solution:
    TDyUpdateState_Richards_MPFAO, _TH_MPFAO and _Salinity_MPFAO
    (src/fv/mpfao/tdympfao.c:2527-2757), TDyUpdateState_Richards_FVTPF
    (src/fv/fvtpf/tdyfvtpf.c:391-446), and of their callers before a time step
    (tdympfao_snes.c:32-63, tdyfvtpf_snes.c:44-76).

    The four functions differ only in the numbers of unknowns per cell, in the salt
    content passed to the equations of state, and in the heat state, so they are
    one function of the mode here.

    Simplifications: the arrays with one entry per cell (TDyAlloc'ed with the same
    number of cells, tdympfao.c:645-690) are one array of records; a non-finite
    effective saturation gives a non-finite relative permeability. *)
From Coq Require Import Reals List Arith.
From Verif Require Import Prelude Arrays Eos CharCurveSet.
Import ListNotations.
Local Open Scope R_scope.

Inductive mode := Richards | RichardsFvtpf | TH | Salinity.

(** Values fixed at setup: Pref, Tref, the selectors of TDyEOS, the curves. *)
Record setting := mkSetting {
  Pref : R; Tref : R;
  den_type : density_type; vis_type : viscosity_type; enthalpy : enthalpy_type;
  sat : container; relperm : container
}.
(** Sr, K0, Kappa0, mu_saline of a cell. *)
Record material := mkMaterial { Sr : R; K0 : list R; Kappa0 : list R; mu : R }.

(** S, dS_dP, d2S_dP2; Kr, dKr_dS; K; rho, drho_dP, d2rho_dP2; vis, dvis_dP,
    d2vis_dP2; m_nacl; Kappa; h, dh_dP, dh_dT; u; and du_dP, du_dT, drho_dT, dS_dT,
    which no function assigns (they are 0 from TDyAlloc on, tdymemory.c). *)
Record point := mkPoint {
  p_sat : fl * fl * fl; p_kr : fl * fl; p_K : list fl;
  p_rho : cells; p_vis : cells; p_salt : fl;
  p_Kappa : list R; p_h : cells; p_u : fl;
  p_du_dP : R; p_du_dT : R; p_drho_dT : R; p_dS_dT : R
}.
(** The arrays, the vector P_vec (the array pressure of TDyFVTPF), and Temp_P_vec
    or Psi_vec. *)
Record state := mkState { points : list point; P_vec : list R; aux : list R }.

Definition set_sat (p : point) (x : fl * fl * fl) : point :=
  mkPoint x (p_kr p) (p_K p) (p_rho p) (p_vis p) (p_salt p) (p_Kappa p) (p_h p) (p_u p) (p_du_dP p) (p_du_dT p) (p_drho_dT p) (p_dS_dT p).
Definition set_kr (p : point) (x : fl * fl) : point :=
  mkPoint (p_sat p) x (p_K p) (p_rho p) (p_vis p) (p_salt p) (p_Kappa p) (p_h p) (p_u p) (p_du_dP p) (p_du_dT p) (p_drho_dT p) (p_dS_dT p).

Definition stride (md : mode) : nat := match md with Richards | RichardsFvtpf => 1 | TH | Salinity => 2 end.

(** [for (c = 0; c < nc; c++) out[c] = U[stride*c+off]]. *)
Definition gather (md : mode) (off : nat) (U : list R) (nc : nat) : outcome (list R) :=
  for_ nc (fun c out => do x <- rd U (stride md * c + off); Ok (out ++ [x])) [].

(** tdympfao.c:2555-2557: the effective saturation. *)
Definition effective (mats : list material) (pts : list point) (c : nat) (out : list fl) : outcome (list fl) :=
  do p <- rd pts c;
  do f <- rd mats c;
  Ok (out ++ [flet s := fst (fst (p_sat p)); fdiv (s - Sr f) (1 - Sr f)]).

Definition kr_eval_fl (ty : nat) (p : list R) (Se : fl) : fl * fl :=
  match Se with Some x => kr_eval ty p x | None => (None, None) end.

(** tdympfao.c:2543-2561: saturation and relative permeability of all points of
    the curves, from the [nc] capillary pressures. *)
Definition curves (g : setting) (mats : list material) (nc : nat) (Pc : list R) (pts : list point) : outcome (list point) :=
  do s <- SaturationCompute (sat g) (combine (map Sr mats) Pc) (map p_sat pts);
  let pts := map (fun x => set_sat (fst x) (snd x)) (combine pts s) in
  do Se <- for_ nc (effective mats pts) [];
  do k <- compute_by_counter kr_nparams kr_eval_fl (relperm g) Se (map p_kr pts);
  Ok (map (fun x => set_kr (fst x) (snd x)) (combine pts k)).

(** The equations of state at a possibly non-finite salt content. *)
Definition density_at (ty : density_type) (P T : R) (m : fl) (mem : cells) : outcome cells :=
  match m, ty with
  | Some m, _ => EOSComputeWaterDensity ty P T m mem
  | None, DensityBatzleWang => let '(_, d1, d2) := mem in Ok (None, d1, d2)
  | None, _ => EOSComputeWaterDensity ty P T 0 mem
  end.
Definition viscosity_at (ty : viscosity_type) (P T : R) (m : fl) (mem : cells) : outcome cells :=
  match m, ty with
  | Some m, _ => EOSComputeWaterViscosity ty P T m mem
  | None, ViscosityBatzleWang => let '(_, d1, d2) := mem in Ok (None, d1, d2)
  | None, _ => EOSComputeWaterViscosity ty P T 0 mem
  end.

(** The cell loop, tdympfao.c:2564-2581, 2633-2659, 2715-2737 and
    tdyfvtpf.c:427-443.  [x] is the second unknown of the cell (not used with one
    unknown).  EOSComputeSalinityFraction does not use the density it is given. *)
Definition update_point (md : mode) (g : setting) (f : material) (P x : R) (p : point) : outcome point :=
  let kr := (fst (p_kr p), fl2 Rmult (snd (p_kr p)) (fdiv 1 (1 - Sr f))) in
  let K := map (fun k0 => fl1 (fun k => k0 * k) (fst kr)) (K0 f) in
  let salt := match md with Salinity => EOSComputeSalinityFraction x (mu f) 0 | _ => p_salt p end in
  let used := match md with RichardsFvtpf => Some 0 | _ => salt end in
  do rho <- density_at (den_type g) P (Tref g) used (p_rho p);
  do vis <- viscosity_at (vis_type g) P (Tref g) used (p_vis p);
  match md with
  | TH =>
      do h <- EOSComputeWaterEnthalpy (enthalpy g) x P (p_h p);
      let u := flet h0 := fst (fst h); flet r := fst (fst rho); flet q := fdiv P r; Some (h0 - q) in
      Ok (mkPoint (p_sat p) kr K rho vis salt (Kappa0 f) h u (p_du_dP p) (p_du_dT p) (p_drho_dT p) (p_dS_dT p))
  | _ => Ok (mkPoint (p_sat p) kr K rho vis salt (p_Kappa p) (p_h p) (p_u p) (p_du_dP p) (p_du_dT p) (p_drho_dT p) (p_dS_dT p))
  end.
Definition update_cell (md : mode) (g : setting) (mats : list material) (Ps xs : list R) (c : nat) (pts : list point) : outcome (list point) :=
  do p <- rd pts c;
  do f <- rd mats c;
  do P <- rd Ps c;
  do x <- (if (stride md =? 1)%nat then Ok 0 else rd xs c);
  do p' <- update_point md g f P x p;
  wr pts c p'.

(** [for (c = 0; c < nc; c++) v[c] = x[c]]. *)
Definition store (xs : list R) (c : nat) (v : list R) : outcome (list R) := do x <- rd xs c; wr v c x.

(** TDyUpdateState_* for [nc] cells with solution array [U].  Pref - (Pref - P),
    which the code uses for the pressure, is P. *)
Definition UpdateState (md : mode) (g : setting) (mats : list material) (nc : nat) (U : list R) (s : state) : outcome state :=
  do Ps <- gather md 0 U nc;
  do xs <- (if (stride md =? 1)%nat then Ok [] else gather md 1 U nc);
  do pts <- curves g mats nc (map (fun P => Pref g - P) Ps) (points s);
  do pts <- for_ nc (update_cell md g mats Ps xs) pts;
  do pv <- for_ nc (store Ps) (P_vec s);
  do av <- (if (stride md =? 1)%nat then Ok (aux s) else for_ nc (store xs) (aux s));
  Ok (mkState pts pv av).

(** ** State before a time step *)

(** TDyMPFAOSNESPreSolve (tdympfao_snes.c:44-47) and TDyFVTPFSNESPreSolve
    (tdyfvtpf_snes.c:57-59): the array of the global vector soln_prev, which holds
    the owned cells, and num_cells_local. *)
Definition presolve_state (md : mode) (g : setting) (mats : list material) (n_local : nat) (soln_prev : list R) (s : state) : outcome state :=
  UpdateState md g mats n_local soln_prev s.
(** TDyMPFAOSNESPreSolve_Salinity, tdympfao_snes_salinity.c:62-65: the same vector,
    but the number of all cells. *)
Definition presolve_state_salinity (g : setting) (mats : list material) (n : nat) (soln_prev : list R) (s : state) : outcome state :=
  UpdateState Salinity g mats n soln_prev s.

(** InitMaterials, tdympfao.c:692-737 (tdyfvtpf.c:178-222): van Genuchten and Mualem curves for all cells,
    ghosts included, with the same parameters everywhere. *)
Definition default_curves (nc : nat) (m alpha : R) (poly : list R) : outcome (@container * @container) :=
  do a <- SaturationSetType cc_create 1 (seq 0 nc) (concat (repeat [m; alpha] nc));
  do b <- RelativePermeabilitySetType cc_create 1 (seq 0 nc) (concat (repeat (m :: poly) nc));
  Ok (a, b).
