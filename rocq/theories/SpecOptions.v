(** What each option is for. *)
From Coq Require Import Reals Bool List String.
From Verif Require Import Prelude Slots Options.
Import ListNotations.
Local Open Scope string_scope.

Inductive quantity :=
| QGravity | QPorosity | QPermeability | QSoilDensity | QSoilSpecificHeat | QThermalConductivity
| QSalineMolecularWeight | QSalineDiffusivity | QResidualSaturation | QGardnerN | QVanGenuchtenM | QVanGenuchtenAlpha
| QBoundaryPressure | QBoundaryVelocity | QBoundaryTemperature.

Definition value (q : quantity) (o : options) : R :=
  match q with
  | QGravity => gravity_constant o | QPorosity => porosity o | QPermeability => permeability o
  | QSoilDensity => soil_density o | QSoilSpecificHeat => soil_specific_heat o
  | QThermalConductivity => thermal_conductivity o | QSalineMolecularWeight => saline_molecular_weight o
  | QSalineDiffusivity => saline_diffusivity o | QResidualSaturation => residual_saturation o
  | QGardnerN => gardner_n o | QVanGenuchtenM => vangenuchten_m o | QVanGenuchtenAlpha => vangenuchten_alpha o
  | QBoundaryPressure => boundary_pressure o | QBoundaryVelocity => boundary_velocity o
  | QBoundaryTemperature => boundary_temperature o
  end.

(** The option naming a quantity (spelled as in the code), if there is one. *)
Definition option_of (q : quantity) : option string :=
  match q with
  | QGravity => Some "-tdy_gravity" | QPorosity => Some "-tdy_porosity" | QPermeability => Some "-tdy_permability"
  | QSoilDensity => Some "-tdy_soil_density" | QSoilSpecificHeat => Some "-tdy_soil_specific_heat"
  | QThermalConductivity => Some "-tdy_thermal_conductivity" | QSalineMolecularWeight => None | QSalineDiffusivity => None
  | QResidualSaturation => Some "-tdy_residual_satuaration" | QGardnerN => Some "-tdy_gardner_param_n"
  | QVanGenuchtenM => Some "-tdy_vangenuchten_param_m" | QVanGenuchtenAlpha => Some "-tdy_vangenuchten_param_alpha"
  | QBoundaryPressure => Some "-tdy_pressure_bc_value" | QBoundaryVelocity => Some "-tdy_velocity_bc_value"
  | QBoundaryTemperature => Some "-tdy_temperature_bc_value"
  end.

(** Boundary values are ignored when a named function is selected instead. *)
Definition overridden (db : database) (q : quantity) : bool :=
  match q with
  | QBoundaryPressure => string_option db "-tdy_pressure_bc_func"
  | QBoundaryVelocity => string_option db "-tdy_velocity_bc_func"
  | QBoundaryTemperature => string_option db "-tdy_temperature_bc_func"
  | _ => false
  end.

Definition expected (db : database) (q : quantity) (default : R) : R :=
  if overridden db q then default
  else match option_of q with
       | Some name => match real_option db name with Some v => v | None => default end
       | None => default
       end.

(** The database with one more numeric option. *)
Definition with_option (db : database) (name : string) (v : R) : database :=
  {| real_option := fun n => if String.eqb n name then Some v else real_option db n;
     string_option := string_option db |}.

(** The constant a slot stands for. *)
Definition constant_payload (s : slot) : option R :=
  match s_context s, s_fn s with Some (Own _ (PValue v)), Some FConstant => Some v | _, _ => None end.

(** The option a property defaults to, and the properties a mode needs. *)
Definition default_of (k : kind) (o : options) : option R :=
  match k with
  | Porosity => Some (porosity o) | Permeability => Some (permeability o) | ResidualSaturation => Some (residual_saturation o)
  | ThermalConductivity => Some (thermal_conductivity o) | SoilDensity => Some (soil_density o)
  | SoilSpecificHeat => Some (soil_specific_heat o) | SalineDiffusivity => Some (saline_diffusivity o)
  | SalineMolecularWeight => Some (saline_molecular_weight o) | _ => None end.

Definition needed (m : drivermode) : list kind :=
  match m with
  | DRichards => [Porosity; Permeability; ResidualSaturation]
  | DTH => [Porosity; Permeability; ResidualSaturation; ThermalConductivity; SoilDensity; SoilSpecificHeat]
  | DSalinity => [Porosity; Permeability; ResidualSaturation; SalineMolecularWeight; SalineDiffusivity]
  end.
