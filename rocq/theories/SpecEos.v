(** Specification vocabulary for the equations of state. *)
From Coq Require Import Reals.
From Verif Require Import Prelude Eos.
Local Open Scope R_scope.

(** The density models that are functions of pressure alone. *)
Definition pressure_only (ty : density_type) : Prop := ty = DensityConstant \/ ty = DensityExponential.

(** What a caller finds in the three cells after asking for the density at a
    pressure, when the cells started out as [mem]. *)
Definition cell_value (o : outcome cells) : fl := match o with Ok (v, _, _) => v | _ => None end.
Definition cell_first (o : outcome cells) : fl := match o with Ok (_, v, _) => v | _ => None end.
Definition cell_second (o : outcome cells) : fl := match o with Ok (_, _, v) => v | _ => None end.

(** All outputs are defined: they do not depend on what was there before. *)
Definition defines_outputs (f : cells -> outcome cells) : Prop :=
  forall mem1 mem2, f mem1 = f mem2.

(** The correlations as published: M. Batzle and Z. Wang, "Seismic properties of
    pore fluids", Geophysics 57 (1992), equations 27a, 27b and 32; [P] in MPa, [T] in
    degrees Celsius, [S] mass fraction; density of brine minus density of fresh
    water in g/cm3, viscosity in cP. *)
Definition published_brine_excess (P T S : R) : R :=
  S * (0.668 + 0.44 * S + / 1000000 * (300 * P - 2400 * P * S + T * (80 + 3 * T - 3300 * S - 13 * P + 47 * P * S))).
Definition published_viscosity (s8 t8 S : R) : R :=
  0.1 + 0.333 * S + (1.65 + 91.9 * S ^ 3) * exp (- (0.42 * (s8 - 0.17) ^ 2 + 0.045) * t8).
Definition published_fresh_density (P T : R) : R :=
  1 + / 1000000 * (- (80) * T - 3.3 * T ^ 2 + 0.00175 * T ^ 3 + 489 * P - 2 * T * P + 0.016 * T ^ 2 * P
    - 0.000013 * T ^ 3 * P - 0.333 * P ^ 2 - 0.002 * T * P ^ 2).

(** Water of constant compressibility above the reference pressure. *)
Definition compressed_density (p : R) : R := 997.16 * exp (/ 100000000 * Rmax 0 (p - 101325)).
