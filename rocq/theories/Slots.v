(** Model of the condition and material-property slots:
    src/tdyconditions.c, src/materials/tdymaterialproperties.c:24-375 and 543-760,
    the wrappers of src/tdycore.c:1290-1396.

    A user context is a number; a context allocated by the library carries its
    (never modified) payload and a serial number.  Destructor calls are recorded
    in a log.  Function values are names; what they compute is the [world]. *)
From Coq Require Import Reals Bool List Arith.
From Verif Require Import Prelude.
Import ListNotations.

Inductive payload :=
| PValue (v : R)            (* a constant *)
| PFunction (f : nat).      (* a spatial function of the user *)

Inductive context := User (id : nat) | Own (serial : nat) (p : payload).

Inductive fn :=
| FUser (k : nat)           (* a function of the user, given the context *)
| FConstant                 (* ConstantBoundaryFn / ConstantScalarWrapperFunction *)
| FWrapper.                 (* WrapperFunction / ScalarWrapperFunction: payload only *)

Inductive dtor := DUser (k : nat) | DFree.       (* DFree: TDyFree *)

(** One slot: context, function, destructor (None is NULL); a new object is zeroed. *)
Record slot := { s_context : option context; s_fn : option fn; s_dtor : option dtor }.
Definition empty : slot := {| s_context := None; s_fn := None; s_dtor := None |}.

Inductive kind :=
| Forcing | EnergyForcing | SalinitySource | BoundaryPressure | BoundaryPressureType
| BoundaryVelocity | BoundaryTemperature | BoundarySalineConc
| Porosity | Permeability | ThermalConductivity | ResidualSaturation | SoilDensity
| SoilSpecificHeat | SalineDiffusivity | SalineMolecularWeight.

(** Conditions (include/private/tdyconditionsimpl.h) and MaterialProp
    (include/private/tdymaterialpropertiesimpl.h). *)
Record store := {
  st_forcing : slot; st_energy_forcing : slot; st_salinity_source : slot; st_boundary_pressure : slot;
  st_boundary_pressure_type : slot; st_boundary_velocity : slot; st_boundary_temperature : slot; st_boundary_saline_conc : slot;
  st_porosity : slot; st_permeability : slot; st_thermal_conductivity : slot; st_residual_saturation : slot;
  st_soil_density : slot; st_soil_specific_heat : slot; st_saline_diffusivity : slot; st_saline_molecular_weight : slot;
  destroyed : list (kind * context * dtor);      (* destructor calls, oldest first *)
  serial : nat                                    (* next allocation *)
}.

Definition new_store : store :=
  {| st_forcing := empty; st_energy_forcing := empty; st_salinity_source := empty; st_boundary_pressure := empty;
     st_boundary_pressure_type := empty; st_boundary_velocity := empty; st_boundary_temperature := empty; st_boundary_saline_conc := empty;
     st_porosity := empty; st_permeability := empty; st_thermal_conductivity := empty; st_residual_saturation := empty;
     st_soil_density := empty; st_soil_specific_heat := empty; st_saline_diffusivity := empty; st_saline_molecular_weight := empty;
     destroyed := []; serial := 0 |}.

(** The destructor call at the start of every setter. *)
Definition release (k : kind) (old : slot) : list (kind * context * dtor) :=
  match s_context old, s_dtor old with Some c, Some d => [(k, c, d)] | _, _ => [] end.

(** ConditionsSet* (src/tdyconditions.c:27-164) and MaterialPropSet*
    (src/materials/tdymaterialproperties.c:40-174). *)
Definition set (s : store) (k : kind) (c : option context) (f : option fn) (d : option dtor) : store :=
  let new := {| s_context := c; s_fn := f; s_dtor := d |} in
  let mk a b e g h i j l m n o p q r t u dead :=
    {| st_forcing := a; st_energy_forcing := b; st_salinity_source := e; st_boundary_pressure := g;
       st_boundary_pressure_type := h; st_boundary_velocity := i; st_boundary_temperature := j; st_boundary_saline_conc := l;
       st_porosity := m; st_permeability := n; st_thermal_conductivity := o; st_residual_saturation := p;
       st_soil_density := q; st_soil_specific_heat := r; st_saline_diffusivity := t; st_saline_molecular_weight := u;
       destroyed := destroyed s ++ dead; serial := serial s |} in
  let a := st_forcing s in let b := st_energy_forcing s in let e := st_salinity_source s in let g := st_boundary_pressure s in
  let h := st_boundary_pressure_type s in let i := st_boundary_velocity s in let j := st_boundary_temperature s in let l := st_boundary_saline_conc s in
  let m := st_porosity s in let n := st_permeability s in let o := st_thermal_conductivity s in let p := st_residual_saturation s in
  let q := st_soil_density s in let r := st_soil_specific_heat s in let t := st_saline_diffusivity s in let u := st_saline_molecular_weight s in
  match k with
  | Forcing => mk new b e g h i j l m n o p q r t u (release k a)
  | EnergyForcing => mk a new e g h i j l m n o p q r t u (release k b)
  | SalinitySource => mk a b new g h i j l m n o p q r t u (release k e)
  | BoundaryPressure => mk a b e new h i j l m n o p q r t u (release k g)
  | BoundaryPressureType => mk a b e g new i j l m n o p q r t u (release k h)
  | BoundaryVelocity => mk a b e g h new j l m n o p q r t u (release k i)
  | BoundaryTemperature => mk a b e g h i new l m n o p q r t u (release k j)
  | BoundarySalineConc => mk a b e g h i j new m n o p q r t u (release k l)
  | Porosity => mk a b e g h i j l new n o p q r t u (release k m)
  | Permeability => mk a b e g h i j l m new o p q r t u (release k n)
  | ThermalConductivity => mk a b e g h i j l m n new p q r t u (release k o)
  | ResidualSaturation => mk a b e g h i j l m n o new q r t u (release k p)
  | SoilDensity => mk a b e g h i j l m n o p new r t u (release k q)
  | SoilSpecificHeat => mk a b e g h i j l m n o p q new t u (release k r)
  | SalineDiffusivity => mk a b e g h i j l m n o p q r new u (release k t)
  | SalineMolecularWeight => mk a b e g h i j l m n o p q r t new (release k u)
  end.

Definition get (s : store) (k : kind) : slot :=
  match k with
  | Forcing => st_forcing s | EnergyForcing => st_energy_forcing s | SalinitySource => st_salinity_source s
  | BoundaryPressure => st_boundary_pressure s | BoundaryPressureType => st_boundary_pressure_type s
  | BoundaryVelocity => st_boundary_velocity s | BoundaryTemperature => st_boundary_temperature s
  | BoundarySalineConc => st_boundary_saline_conc s
  | Porosity => st_porosity s | Permeability => st_permeability s | ThermalConductivity => st_thermal_conductivity s
  | ResidualSaturation => st_residual_saturation s | SoilDensity => st_soil_density s | SoilSpecificHeat => st_soil_specific_heat s
  | SalineDiffusivity => st_saline_diffusivity s | SalineMolecularWeight => st_saline_molecular_weight s
  end.

(** An allocation by the library. *)
Definition allocated (s : store) : store :=
  {| st_forcing := st_forcing s; st_energy_forcing := st_energy_forcing s; st_salinity_source := st_salinity_source s;
     st_boundary_pressure := st_boundary_pressure s; st_boundary_pressure_type := st_boundary_pressure_type s;
     st_boundary_velocity := st_boundary_velocity s; st_boundary_temperature := st_boundary_temperature s;
     st_boundary_saline_conc := st_boundary_saline_conc s;
     st_porosity := st_porosity s; st_permeability := st_permeability s; st_thermal_conductivity := st_thermal_conductivity s;
     st_residual_saturation := st_residual_saturation s; st_soil_density := st_soil_density s;
     st_soil_specific_heat := st_soil_specific_heat s; st_saline_diffusivity := st_saline_diffusivity s;
     st_saline_molecular_weight := st_saline_molecular_weight s; destroyed := destroyed s; serial := S (serial s) |}.

(** ConditionsSetConstant* (src/tdyconditions.c:262-308) and the scalar
    MaterialPropSetConstant* (src/materials/tdymaterialproperties.c:543-557). *)
Definition set_constant (s : store) (k : kind) (v : R) : store :=
  set (allocated s) k (Some (Own (serial s) (PValue v))) (Some FConstant) (Some DFree).

(** TDySet*Function (src/tdycore.c:1318-1396) and the scalar
    MaterialPropSetHeterogeneous* (src/materials/tdymaterialproperties.c:559-574). *)
Definition set_function (s : store) (k : kind) (f : nat) : store :=
  set (allocated s) k (Some (Own (serial s) (PFunction f))) (Some FWrapper) (Some DFree).

(** ConditionsDestroy (src/tdyconditions.c:15-25) resets six of its eight slots,
    MaterialPropDestroy (src/materials/tdymaterialproperties.c:25-38) all eight. *)
Definition reset (s : store) (k : kind) : store := set s k None None None.
Definition condition_resets : list kind :=
  [Forcing; EnergyForcing; BoundaryPressure; BoundaryVelocity; BoundaryTemperature; BoundarySalineConc].
Definition property_resets : list kind :=
  [Porosity; Permeability; ThermalConductivity; ResidualSaturation; SoilDensity; SoilSpecificHeat; SalineDiffusivity; SalineMolecularWeight].
Definition destroy (s : store) : store := fold_left reset (condition_resets ++ property_resets) s.

(** ConditionsHas* / MaterialPropHas*. *)
Definition has (s : store) (k : kind) : bool := match s_fn (get s k) with Some _ => true | None => false end.

(** Writing [vals] to the start of the caller's array [old]. *)
Definition overwrite (vals old : list R) : outcome (list R) :=
  if length vals <=? length old then Ok (vals ++ skipn (length vals) old) else UB.

(** What functions of the user write: for points of any type [X]. *)
Section Evaluation.
Context {X : Type}.
Record world := {
  user_fn : nat -> option context -> list X -> list R;   (* with context *)
  spatial : nat -> list X -> list R                      (* without *)
}.

Definition is_condition (k : kind) : bool :=
  match k with
  | Forcing | EnergyForcing | SalinitySource | BoundaryPressure | BoundaryPressureType | BoundaryVelocity
  | BoundaryTemperature | BoundarySalineConc => true
  | _ => false
  end.

(** ConstantBoundaryFn (src/tdyconditions.c:251-260), ConstantScalarWrapperFunction
    (src/materials/tdymaterialproperties.c:419-427): one value per point;
    WrapperFunction (src/tdycore.c:1301-1315), ScalarWrapperFunction
    (tdymaterialproperties.c:431-437). *)
Definition call_fn (w : world) (f : fn) (c : option context) (xs : list X) (old : list R) : outcome (list R) :=
  match f, c with
  | FUser k, _ => overwrite (user_fn w k c xs) old
  | FConstant, Some (Own _ (PValue v)) => overwrite (map (fun _ => v) xs) old
  | FWrapper, Some (Own _ (PFunction g)) => overwrite (spatial w g xs) old
  | _, _ => UB
  end.

(** ConditionsCompute* (src/tdyconditions.c:198-249) call the function without a
    test; MaterialPropCompute* (src/materials/tdymaterialproperties.c:239-375)
    leave the output [old] alone when there is none. *)
Definition evaluate (w : world) (s : store) (k : kind) (xs : list X) (old : list R) : outcome (list R) :=
  match s_fn (get s k) with
  | Some f => call_fn w f (s_context (get s k)) xs old
  | None => if is_condition k then UB else Ok old
  end.
End Evaluation.

Inductive op :=
| OSet (k : kind) (c : option context) (f : option fn) (d : option dtor)
| OConstant (k : kind) (v : R)
| OFunction (k : kind) (f : nat).

Definition apply (s : store) (o : op) : store :=
  match o with
  | OSet k c f d => set s k c f d
  | OConstant k v => set_constant s k v
  | OFunction k f => set_function s k f
  end.

Definition run (s : store) (l : list op) : store := fold_left apply l s.
