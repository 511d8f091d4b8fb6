(** Specification vocabulary for the state of the cells.  Of State.v only the data
    types are used; the curves and equations of state are those of C01-C07. *)
From Coq Require Import Reals List Arith.
From Coquelicot Require Import Coquelicot.
From Verif Require Import Prelude CharCurves SpecCurves CharCurveSet SpecCurveSet Eos SpecEos State.
From Verif Require Fvtpf MpfaoTs Transport.
Import ListNotations.
Local Open Scope R_scope.

(** ** Curves of the cells *)

(** A parameter list of a curve type, as the curve it stands for. *)
Definition describes_sat (ty : nat) (p : list R) (c : sat_curve) : Prop :=
  match c with
  | Gardner n m alpha => ty = 0%nat /\ p = [n; m; alpha]
  | VanGenuchten m alpha => ty = 1%nat /\ p = [m; alpha]
  end.
Inductive kr_law := PowerLaw (m : R) | Smoothed (m x0 x1 x2 dx c0 c1 c2 c3 : R).
Definition describes_kr (ty : nat) (p : list R) (c : kr_law) : Prop :=
  match c with
  | PowerLaw m => ty = 0%nat /\ p = [m]
  | Smoothed m x0 x1 x2 dx c0 c1 c2 c3 => ty = 1%nat /\ p = [m; x0; x1; x2; dx; c0; c1; c2; c3]
  end.
Definition law (c : kr_law) (Se : R) : fl * fl :=
  match c with
  | PowerLaw m => irmay m Se
  | Smoothed m x0 x1 x2 dx c0 c1 c2 c3 => mualem m x0 x1 dx c0 c1 c2 c3 Se
  end.
Definition admissible_law (c : kr_law) : Prop :=
  match c with
  | PowerLaw m => 0 < m
  | Smoothed m x0 x1 x2 dx c0 c1 c2 c3 => 0 < m /\ 0 < x1 < 1 /\ smoothing_coeffs m x0 x1 x2 dx c0 c1 c2 c3
  end.

(** After some history of assignments, each of the cells [0..N-1], and no other,
    has the saturation curve [sc]; relative permeability curves of one type were
    assigned in the order of the cells (as the library does it; see C05). *)
Record curves_set (g : setting) (N : nat) (sc : nat -> sat_curve) (kc : nat -> kr_law) : Prop := {
  cs_sat : exists h, run sat_nparams sat_eval cc_create h = Ok (sat g) /\ disjoint_assignment h
    /\ (forall ty j, (ty < 2)%nat -> In j (points_of h ty) -> (j < N)%nat)
    /\ (forall c, (c < N)%nat -> exists ty p, (ty < 2)%nat /\ assigned sat_nparams h ty c p /\ describes_sat ty p (sc c));
  cs_kr : exists h, run kr_nparams kr_eval_fl cc_create h = Ok (relperm g)
    /\ (points_of h 0 = seq 0 N /\ points_of h 1 = [] \/ points_of h 0 = [] /\ points_of h 1 = seq 0 N)
    /\ (forall c, (c < N)%nat -> exists ty p, (ty < 2)%nat /\ assigned kr_nparams h ty c p /\ describes_kr ty p (kc c))
}.

(** ** Problems with [N] cells *)

Definition unknowns (md : mode) : nat := match md with Richards | RichardsFvtpf => 1 | TH | Salinity => 2 end.
(** The selectors have one of their documented values. *)
Definition known (md : mode) (g : setting) : Prop :=
  den_type g <> DensityOther /\ vis_type g <> ViscosityOther /\ (md = TH -> enthalpy g <> EnthalpyOther).
Definition sized (md : mode) (N : nat) (mats : list material) (s : state) : Prop :=
  length mats = N /\ length (points s) = N /\ (N <= length (P_vec s))%nat /\ (unknowns md = 2%nat -> (N <= length (aux s))%nat).
Definition pressure (md : mode) (U : list R) (c : nat) : R := nth (unknowns md * c) U 0.
(** Temperature or salinity. *)
Definition second (md : mode) (U : list R) (c : nat) : R := match md with Richards | RichardsFvtpf => 0 | _ => nth (2 * c + 1) U 0 end.

(** A point holds the state of a cell with the curves [sc] and [kc] at pressure [P]. *)
Definition effective_saturation (Sr S : R) : R := (S - Sr) / (1 - Sr).
Definition wet_state (g : setting) (sc : sat_curve) (kc : kr_law) (f : material) (P : R) (p : point) : Prop :=
  p_sat p = sat_at sc (Sr f) (Pref g) P
  /\ forall S, fst (fst (p_sat p)) = Some S -> Sr f <> 1 ->
       let k := law kc (effective_saturation (Sr f) S) in
       fst (p_kr p) = fst k
       /\ snd (p_kr p) = fl1 (fun d => d / (1 - Sr f)) (snd k)
       /\ p_K p = map (fun k0 => fl1 (fun k => k0 * k) (fst k)) (K0 f).
(** The parts of the state that the residuals read. *)
Definition same_state (md : mode) (p q : point) : Prop :=
  p_sat p = p_sat q /\ p_kr p = p_kr q /\ p_K p = p_K q /\ p_rho p = p_rho q /\ p_vis p = p_vis q
  /\ (md = Salinity -> p_salt p = p_salt q) /\ (md = TH -> p_h p = p_h q /\ p_u p = p_u q /\ p_Kappa p = p_Kappa q).
(** Models whose three outputs are all assigned. *)
Definition simple_water (g : setting) : Prop := pressure_only (den_type g) /\ vis_type g = ViscosityConstant.

(** The cell as the residuals see it; [None] if a value is not finite. *)
Definition mpfa_cell (p : point) : option MpfaoTs.cell :=
  match p_rho p, p_vis p, p_sat p, p_kr p with
  | (Some r, Some r1, Some r2), (Some v, Some v1, _), (Some s, Some s1, Some s2), (Some k, Some k1) =>
      Some (MpfaoTs.mkCell r r1 r2 v v1 s s1 s2 k k1)
  | _, _, _, _ => None
  end.
Definition two_point_cell (P : R) (p : point) : option Fvtpf.cell :=
  match p_rho p, p_vis p, p_sat p, p_kr p with
  | (Some r, Some r1, _), (Some v, Some v1, _), (Some s, Some s1, _), (Some k, Some k1) =>
      Some (Fvtpf.mkCell P r r1 v v1 s s1 k k1)
  | _, _, _, _ => None
  end.
(** Energy per cell, with soil density, soil heat capacity and source given. *)
Definition heat_cell (rho_soil c_soil src : R) (p : point) : option Transport.heat :=
  match p_h p, p_u p with
  | (Some h, _, _), Some u => Some (Transport.mkHeat h u (p_du_dP p) (p_du_dT p) (p_drho_dT p) (p_dS_dT p) rho_soil c_soil src)
  | _, _ => None
  end.

(** ** Histories *)

(** A sequence of evaluations at different solutions. *)
Fixpoint evaluate (md : mode) (g : setting) (mats : list material) (N : nat) (Us : list (list R)) (s : state) : outcome state :=
  match Us with
  | [] => Ok s
  | U :: Us => do s <- UpdateState md g mats N U s; evaluate md g mats N Us s
  end.
(** As allocated: all arrays are zero. *)
Definition zero_point : point :=
  mkPoint (Some 0, Some 0, Some 0) (Some 0, Some 0) (repeat (Some 0) 9) (Some 0, Some 0, Some 0) (Some 0, Some 0, Some 0) (Some 0)
    (repeat 0 9) (Some 0, Some 0, Some 0) (Some 0) 0 0 0 0.
Definition fresh (N ncol : nat) : state := mkState (repeat zero_point N) (repeat 0 ncol) (repeat 0 ncol).
