(** What a user expects of a start of the driver. *)
From Coq Require Import Reals List Bool Arith.
From Verif Require Import Lifecycle Prelude Arrays Driver.
Import ListNotations.
Local Open Scope R_scope.

(** What a call-back is for: mode, discretization, solver. *)
Definition residual_for (r : residual) : mode * discretization * method :=
  match r with
  | MPFAOSNESFunction => (RICHARDS, MPFA_O, TDySNES)
  | MPFAOSNESFunction_Salinity => (SALINITY, MPFA_O, TDySNES)
  | FVTPFSNESFunction => (RICHARDS, FV_TPF, TDySNES)
  | MPFAOIFunction => (RICHARDS, MPFA_O, TDyTS)
  | MPFAOIFunction_TH => (TH, MPFA_O, TDyTS)
  | MPFAOIFunction_DAE => (RICHARDS, MPFA_O_DAE, TDyTS)
  | MPFAOIFunction_TransientVariable => (RICHARDS, MPFA_O_TRANSIENTVAR, TDyTS)
  | WYResidual => (RICHARDS, WY, TDyTS)
  end.
Definition jacobian_for (j : jacobian) : mode * discretization * method :=
  match j with
  | MPFAOSNESJacobian => (RICHARDS, MPFA_O, TDySNES)
  | FVTPFSNESJacobian => (RICHARDS, FV_TPF, TDySNES)
  | MPFAOIJacobian => (RICHARDS, MPFA_O, TDyTS)
  | MPFAOIJacobian_TH => (TH, MPFA_O, TDyTS)
  end.

(** The combinations that can be started. *)
Definition supported : list (mode * discretization * method) :=
  [ (RICHARDS, MPFA_O, TDySNES); (RICHARDS, MPFA_O, TDyTS); (RICHARDS, MPFA_O_DAE, TDyTS);
    (RICHARDS, MPFA_O_TRANSIENTVAR, TDyTS); (RICHARDS, FV_TPF, TDySNES); (TH, MPFA_O, TDyTS);
    (SALINITY, MPFA_O, TDySNES) ].

(** The i-th unknown: every one is a pressure in RICHARDS; pressures alternate with
    temperatures (in degrees) or mass fractions of salt in the other two modes. *)
Definition plausible (m : mode) (i : nat) (x : R) : Prop :=
  match m with
  | RICHARDS => 0 < x
  | TH => if Nat.even i then 0 < x else 0 <= x <= 100
  | SALINITY => if Nat.even i then 0 < x else 0 <= x <= 1
  end.
Definition plausible_state (m : mode) (v : list R) : Prop := forall i x, nth_error v i = Some x -> plausible m i x.

Definition unit_interval (draw : random) : Prop := forall k i, 0 <= draw k i <= 1.

(** The properties a mode looks at. *)
Definition needed (m : mode) : list prop :=
  [Porosity; Permeability; ResidualSaturation] ++
  match m with
  | RICHARDS => []
  | TH => [ThermalConductivity; SoilDensity; SoilSpecificHeat]
  | SALINITY => [SalineMolecularWeight; SalineDiffusivity]
  end.
