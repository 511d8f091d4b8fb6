(** Specification vocabulary for condition and property slots: functions of the
    history of set calls. *)
From Coq Require Import Reals Bool List Arith.
From Verif Require Import Prelude Slots.
Import ListNotations.

Definition kind_eqb (a b : kind) : bool :=
  match a, b with
  | Forcing, Forcing | EnergyForcing, EnergyForcing | SalinitySource, SalinitySource
  | BoundaryPressure, BoundaryPressure | BoundaryPressureType, BoundaryPressureType
  | BoundaryVelocity, BoundaryVelocity | BoundaryTemperature, BoundaryTemperature
  | BoundarySalineConc, BoundarySalineConc | Porosity, Porosity | Permeability, Permeability
  | ThermalConductivity, ThermalConductivity | ResidualSaturation, ResidualSaturation
  | SoilDensity, SoilDensity | SoilSpecificHeat, SoilSpecificHeat | SalineDiffusivity, SalineDiffusivity
  | SalineMolecularWeight, SalineMolecularWeight => true
  | _, _ => false
  end.

Definition op_kind (o : op) : kind := match o with OSet k _ _ _ | OConstant k _ | OFunction k _ => k end.

(** The last operation on a kind, with the number of allocations before it. *)
Definition allocates (o : op) : nat := match o with OSet _ _ _ _ => 0 | _ => 1 end.
Fixpoint last_op (k : kind) (n : nat) (acc : option (nat * op)) (l : list op) : option (nat * op) :=
  match l with
  | [] => acc
  | o :: l => last_op k (n + allocates o) (if kind_eqb (op_kind o) k then Some (n, o) else acc) l
  end.

(** Contexts handed over for a kind together with a destructor, in order; a
    constant or a plain function is handed over by the library itself. *)
Definition handed (n : nat) (o : op) : list (context * dtor) :=
  match o with
  | OSet _ (Some c) _ (Some d) => [(c, d)]
  | OSet _ _ _ _ => []
  | OConstant _ v => [(Own n (PValue v), DFree)]
  | OFunction _ f => [(Own n (PFunction f), DFree)]
  end.
Fixpoint handed_over (k : kind) (n : nat) (l : list op) : list (context * dtor) :=
  match l with
  | [] => []
  | o :: l => (if kind_eqb (op_kind o) k then handed n o else []) ++ handed_over k (n + allocates o) l
  end.

(** Destructor calls recorded for a kind. *)
Fixpoint destroyed_for (k : kind) (l : list (kind * context * dtor)) : list (context * dtor) :=
  match l with
  | [] => []
  | (k', c, d) :: l => (if kind_eqb k' k then [(c, d)] else []) ++ destroyed_for k l
  end.

(** The context still installed, if it has a destructor. *)
Definition installed (s : slot) : list (context * dtor) :=
  match s_context s, s_dtor s with Some c, Some d => [(c, d)] | _, _ => [] end.
