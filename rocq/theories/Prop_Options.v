(** Properties of the command-line options. *)
From Coq Require Import Reals Bool List String Lra.
From Verif Require Import Prelude Slots SpecSlots SlotsProofs Options SpecOptions OptionsProofs.
Import ListNotations.
Local Open Scope string_scope.

(** C24: every quantity takes the value of its own option, or its default. *)
Theorem C24_option_sets_its_quantity_partial : forall db q o, q <> QThermalConductivity ->
  (q = QPorosity -> real_option db "-tdy_thermal_conductivity" = None) ->
  value q (ReadCommandLineOptions db o) = expected db q (value q o).
Proof. exact options_proof. Qed.

(** Giving one more option changes no quantity but its own. *)
Theorem C24_option_changes_nothing_else_partial : forall db o name v q, name <> "-tdy_thermal_conductivity" -> option_of q <> Some name ->
  value q (ReadCommandLineOptions (with_option db name v) o) = value q (ReadCommandLineOptions db o).
Proof. exact one_option_proof. Qed.

(** The option for the thermal conductivity sets the porosity, and nothing sets
    the thermal conductivity. *)
Theorem C24_thermal_conductivity_sets_porosity : forall db o,
  thermal_conductivity (ReadCommandLineOptions db o) = thermal_conductivity o
  /\ forall v, real_option db "-tdy_thermal_conductivity" = Some v -> porosity (ReadCommandLineOptions db o) = v.
Proof. exact thermal_conductivity_ignored_proof. Qed.

(** With both options given, the value for the thermal conductivity ends as the porosity. *)
Theorem C24_thermal_conductivity_refuted : exists db,
  real_option db "-tdy_thermal_conductivity" = Some 2%R /\ real_option db "-tdy_porosity" = Some (1/2)%R
  /\ thermal_conductivity (ReadCommandLineOptions db SetDefaultOptions) = 1%R
  /\ porosity (ReadCommandLineOptions db SetDefaultOptions) = 2%R.
Proof.
  exists {| real_option := fun n => if String.eqb n "-tdy_thermal_conductivity" then Some 2%R
                                   else if String.eqb n "-tdy_porosity" then Some (1/2)%R else None;
            string_option := fun _ => false |}.
  repeat split; reflexivity.
Qed.

(** A property that was not set takes the option's value in the driver; one that
    was set keeps its function. *)
Theorem C24_driver_uses_option_for_unset_property : forall m o s k, has s k = false -> In k (needed m) ->
  constant_payload (get (driver_defaults m o s) k) = default_of k o.
Proof. exact driver_sets_proof. Qed.

Theorem C24_driver_keeps_set_property : forall m o s k, has s k = true -> k <> SalineMolecularWeight ->
  get (driver_defaults m o s) k = get s k.
Proof. exact driver_keeps_proof. Qed.

(** The molecular weight set by the user is replaced by the default. *)
Theorem C24_driver_keeps_molecular_weight_refuted : exists s o,
  constant_payload (get s SalineMolecularWeight) = Some 1%R /\
  constant_payload (get (driver_defaults DSalinity o s) SalineMolecularWeight) = Some 58.44%R.
Proof. exists (set_constant new_store SalineMolecularWeight 1), SetDefaultOptions. split; reflexivity. Qed.

(** Constant boundary values given as options become the conditions. *)
Theorem C24_boundary_values_installed : forall db o k q, In (k, q)
    [(BoundaryPressure, QBoundaryPressure); (BoundaryVelocity, QBoundaryVelocity); (BoundaryTemperature, QBoundaryTemperature)] ->
  forall name v, option_of q = Some name -> overridden db q = false ->
  real_option db name = Some v ->
  constant_payload (get (constant_conditions db o new_store) k) = Some v.
Proof. exact boundary_constants_proof. Qed.

Example C24_example :
  let db := {| real_option := fun n => if String.eqb n "-tdy_soil_density" then Some 1900%R else None; string_option := fun _ => false |} in
  soil_density (ReadCommandLineOptions db SetDefaultOptions) = 1900%R
  /\ soil_specific_heat (ReadCommandLineOptions db SetDefaultOptions) = 1000%R.
Proof. split; reflexivity. Qed.

Print Assumptions C24_option_sets_its_quantity_partial.
Print Assumptions C24_option_changes_nothing_else_partial.
Print Assumptions C24_thermal_conductivity_sets_porosity.
Print Assumptions C24_thermal_conductivity_refuted.
Print Assumptions C24_driver_uses_option_for_unset_property.
Print Assumptions C24_driver_keeps_set_property.
Print Assumptions C24_driver_keeps_molecular_weight_refuted.
Print Assumptions C24_boundary_values_installed.
