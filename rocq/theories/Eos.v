(** Model of src/materials/tdyeos.c: equations of state of water.
    Out-parameters are modelled by the memory cells they point to: a function
    takes the cells' previous contents and returns their new contents, so an
    output that is not written keeps what the caller had there.
    [pow(x,2)] and [pow(x,3)], total in C for every finite x, are Coq's powers
    with a natural exponent. *)
From Coq Require Import Reals.
From Verif Require Import Prelude.
Local Open Scope R_scope.

(** TDyWaterDensityType, TDyWaterViscosityType, TDyWaterEnthalpyType:
    include/tdycore.h:101-118.  [Other…] is any other integer stored in the
    selector. *)
Inductive density_type := DensityConstant | DensityExponential | DensityBatzleWang | DensityOther.
Inductive viscosity_type := ViscosityConstant | ViscosityBatzleWang | ViscosityOther.
Inductive enthalpy_type := EnthalpyConstant | EnthalpyOther.

(** (value, first derivative, second derivative) as found at the three pointers. *)
Definition cells : Type := (fl * fl * fl)%type.

(** ComputeWaterDensity_Constant, src/materials/tdyeos.c:5-14. *)
Definition density_constant : cells := (Some 998, Some 0, Some 0).

(** ComputeWaterDensity_Exponential, src/materials/tdyeos.c:17-37. *)
Definition density_exponential (p : R) : cells :=
  let ReferenceDensity := 997.16 in
  let ReferencePressure := 101325 in
  let WaterCompressibility := / 100000000 in
  if Rlt_dec p ReferencePressure then (Some ReferenceDensity, Some 0, Some 0)
  else
    let den := ReferenceDensity * exp (WaterCompressibility * (p - ReferencePressure)) in
    let dden_dP := WaterCompressibility * den in
    (Some den, Some dden_dP, Some (WaterCompressibility * dden_dP)).

(** ComputeWaterDensity_BatzleWang, src/materials/tdyeos.c:40-56: only the
    density.  Transcribed literally, including [80.*3.*T] on line 52. *)
Definition density_batzle_wang_pw (P T : R) : R :=
  let Pa_to_MPa := / 1000000 in
  (1 + / 1000000 * (- (80) * T - 3.3 * T ^ 2 + 0.00175 * T ^ 3 + 489 * P * Pa_to_MPa - 2 * T * P * Pa_to_MPa
     + 0.016 * P * Pa_to_MPa * T ^ 2 - 0.000013 * T ^ 3 * P * Pa_to_MPa
     - 0.333 * (P * Pa_to_MPa) ^ 2 - 0.002 * T * (P * Pa_to_MPa) ^ 2)) * 1000.

Definition density_batzle_wang (P T S : R) : R :=
  let Pa_to_MPa := / 1000000 in
  density_batzle_wang_pw P T
  + S * (0.668 + 0.44 * S + / 1000000 * (300 * P * Pa_to_MPa - 2400 * P * Pa_to_MPa * S
       + T * (80 * 3 * T - 3300 * S - 13 * P * Pa_to_MPa + 47 * P * Pa_to_MPa * S))) * 1000.

(** EOSComputeWaterDensity, src/materials/tdyeos.c:60-85. *)
Definition EOSComputeWaterDensity (ty : density_type) (p T S : R) (mem : cells) : outcome cells :=
  match ty with
  | DensityConstant => Ok density_constant
  | DensityExponential => Ok (density_exponential p)
  | DensityBatzleWang => let '(_, d1, d2) := mem in Ok (Some (density_batzle_wang p T S), d1, d2)
  | DensityOther => Err
  end.

(** ComputeWaterViscosity_Constant, src/materials/tdyeos.c:87-99. *)
Definition viscosity_constant : cells := (Some 0.000994, Some 0, Some 0).

(** ComputeWaterViscosity_BatzleWang, src/materials/tdyeos.c:101-112. *)
Definition viscosity_batzle_wang (T S : R) : fl :=
  flet s8 := fpow S 0.8;
  flet t8 := fpow T 0.8;
  Some ((0.1 + 0.333 * S + (1.65 + 91.9 * S ^ 3) * exp ((- 0.42 * (s8 - 0.17) ^ 2 + 0.045) * t8)) * 0.001).

(** EOSComputeWaterViscosity, src/materials/tdyeos.c:115-136. *)
Definition EOSComputeWaterViscosity (ty : viscosity_type) (p T S : R) (mem : cells) : outcome cells :=
  match ty with
  | ViscosityConstant => Ok viscosity_constant
  | ViscosityBatzleWang => let '(_, d1, d2) := mem in Ok (viscosity_batzle_wang T S, d1, d2)
  | ViscosityOther => Err
  end.

(** EOSComputeWaterEnthalpy, src/materials/tdyeos.c:138-170: (hw, dhw_dP, dhw_dT). *)
Definition EOSComputeWaterEnthalpy (ty : enthalpy_type) (t p : R) (mem : cells) : outcome cells :=
  match ty with
  | EnthalpyConstant => Ok (Some 1.8890, Some 0, Some 0)
  | EnthalpyOther => Err
  end.

(** EOSComputeSalinityFraction, src/materials/tdyeos.c:173-181 ([den] is not used). *)
Definition EOSComputeSalinityFraction (Psi mw den : R) : fl :=
  fdiv (Psi * mw) (Psi * mw + 999).
