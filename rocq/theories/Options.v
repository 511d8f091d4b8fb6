(** Model of the numeric options: SetDefaultOptions (src/tdycore.c:260-296),
    ReadCommandLineOptions (src/tdycore.c:504-621) and of the defaults the driver
    gives to material properties (src/tdydriver.c:39-92). *)
From Coq Require Import Reals Bool List String.
From Verif Require Import Prelude Slots.
Import ListNotations.
Local Open Scope R_scope.
Local Open Scope string_scope.

Record options := {
  gravity_constant : R; porosity : R; permeability : R; soil_density : R; soil_specific_heat : R;
  thermal_conductivity : R; saline_molecular_weight : R; saline_diffusivity : R;
  residual_saturation : R; gardner_n : R; vangenuchten_m : R; vangenuchten_alpha : R;
  boundary_pressure : R; boundary_velocity : R; boundary_temperature : R
}.

Definition SetDefaultOptions : options :=
  {| gravity_constant := 9.8068; porosity := 0.25; permeability := 1 / 10 ^ 12; soil_density := 2650;
     soil_specific_heat := 1000; thermal_conductivity := 1; saline_molecular_weight := 58.44;
     saline_diffusivity := 1 / 10 ^ 6; residual_saturation := 0.15; gardner_n := 0.5; vangenuchten_m := 0.8;
     vangenuchten_alpha := 1 / 10 ^ 4; boundary_pressure := 0; boundary_velocity := 0; boundary_temperature := 273 |}.

(** The options given by the user, as PETSc's database reports them: values of
    numeric options, and which string options are present. *)
Record database := { real_option : string -> option R; string_option : string -> bool }.

(** PetscOptionsReal(name, ..., current, &value, &flag): the value stays as it is
    when the option is absent. *)
Definition OptionsReal (db : database) (name : string) (current : R) : R :=
  match real_option db name with Some v => v | None => current end.

(** The numeric part of ReadCommandLineOptions, in program order. *)
Definition ReadCommandLineOptions (db : database) (o : options) : options :=
  let porosity1 := OptionsReal db "-tdy_porosity" (porosity o) in
  let permeability1 := OptionsReal db "-tdy_permability" (permeability o) in
  let soil_density1 := OptionsReal db "-tdy_soil_density" (soil_density o) in
  let soil_specific_heat1 := OptionsReal db "-tdy_soil_specific_heat" (soil_specific_heat o) in
  (* line 532: the destination of -tdy_thermal_conductivity is options->porosity *)
  let porosity2 := OptionsReal db "-tdy_thermal_conductivity" porosity1 in
  let residual1 := OptionsReal db "-tdy_residual_satuaration" (residual_saturation o) in
  let gardner1 := OptionsReal db "-tdy_gardner_param_n" (gardner_n o) in
  let m1 := OptionsReal db "-tdy_vangenuchten_param_m" (vangenuchten_m o) in
  let alpha1 := OptionsReal db "-tdy_vangenuchten_param_alpha" (vangenuchten_alpha o) in
  let gravity1 := OptionsReal db "-tdy_gravity" (gravity_constant o) in
  let bc1 := if string_option db "-tdy_pressure_bc_func" then boundary_pressure o
             else OptionsReal db "-tdy_pressure_bc_value" (boundary_pressure o) in
  let bc2 := if string_option db "-tdy_velocity_bc_func" then boundary_velocity o
             else OptionsReal db "-tdy_velocity_bc_value" (boundary_velocity o) in
  let bc3 := if string_option db "-tdy_temperature_bc_func" then boundary_temperature o
             else OptionsReal db "-tdy_temperature_bc_value" (boundary_temperature o) in
  {| gravity_constant := gravity1; porosity := porosity2; permeability := permeability1; soil_density := soil_density1;
     soil_specific_heat := soil_specific_heat1; thermal_conductivity := thermal_conductivity o;
     saline_molecular_weight := saline_molecular_weight o; saline_diffusivity := saline_diffusivity o;
     residual_saturation := residual1; gardner_n := gardner1; vangenuchten_m := m1; vangenuchten_alpha := alpha1;
     boundary_pressure := bc1; boundary_velocity := bc2; boundary_temperature := bc3 |}.

(** The boundary conditions installed on the fly (lines 554-589): the selected
    functions are outside this model; the conditions object is new (line 552). *)
Definition constant_conditions (db : database) (o : options) (s : store) : store :=
  let s := if string_option db "-tdy_pressure_bc_func" then s
           else match real_option db "-tdy_pressure_bc_value" with
                | Some _ => set_constant s BoundaryPressure (boundary_pressure (ReadCommandLineOptions db o)) | None => s end in
  let s := if string_option db "-tdy_velocity_bc_func" then s
           else match real_option db "-tdy_velocity_bc_value" with
                | Some _ => set_constant s BoundaryVelocity (boundary_velocity (ReadCommandLineOptions db o)) | None => s end in
  if string_option db "-tdy_temperature_bc_func" then s
  else match real_option db "-tdy_temperature_bc_value" with
       | Some _ => set_constant s BoundaryTemperature (boundary_temperature (ReadCommandLineOptions db o)) | None => s end.

(** The driver's defaults (src/tdydriver.c:39-92), when no porosity or
    permeability file is named.  A constant tensor property is represented by
    its scalar payload (see Tensor.v for its evaluation). *)
Inductive drivermode := DRichards | DTH | DSalinity.
Definition default_if_absent (s : store) (k : kind) (v : R) : store := if has s k then s else set_constant s k v.
Definition driver_defaults (m : drivermode) (o : options) (s : store) : store :=
  let s := default_if_absent s Porosity (porosity o) in
  let s := default_if_absent s Permeability (permeability o) in
  let s := default_if_absent s ResidualSaturation (residual_saturation o) in
  match m with
  | DRichards => s
  | DTH =>
    let s := default_if_absent s ThermalConductivity (thermal_conductivity o) in
    let s := default_if_absent s SoilDensity (soil_density o) in
    default_if_absent s SoilSpecificHeat (soil_specific_heat o)
  | DSalinity =>
    let s := set_constant s SalineMolecularWeight (saline_molecular_weight o) in
    default_if_absent s SalineDiffusivity (saline_diffusivity o)
  end.
