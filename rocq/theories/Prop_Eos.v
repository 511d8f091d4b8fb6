(** C06, C07, C51: equations of state. *)
From Coq Require Import Reals Lra.
From Coquelicot Require Import Coquelicot.
From Verif Require Import Prelude Eos SpecEos EosProofs.
Local Open Scope R_scope.

Theorem C06_density_positive : forall ty p T S mem,
  pressure_only ty ->
  exists d, cell_value (EOSComputeWaterDensity ty p T S mem) = Some d /\ 0 < d.
Proof. exact density_value. Qed.
Print Assumptions C06_density_positive.

Theorem C06_density_monotone : forall ty p q T S mem d e,
  pressure_only ty -> p <= q ->
  cell_value (EOSComputeWaterDensity ty p T S mem) = Some d ->
  cell_value (EOSComputeWaterDensity ty q T S mem) = Some e -> d <= e.
Proof. exact density_monotone. Qed.
Print Assumptions C06_density_monotone.

Theorem C06_density_continuous : forall ty T S mem,
  pressure_only ty ->
  exists g : R -> R, (forall p, cell_value (EOSComputeWaterDensity ty p T S mem) = Some (g p)) /\
                     forall p, continuous g p.
Proof. exact density_continuous. Qed.
Print Assumptions C06_density_continuous.

(** 101325 Pa is the reference pressure, where the exponential density has a kink. *)
Theorem C06_density_derivatives : forall ty p T S mem,
  pressure_only ty -> p <> 101325 ->
  exists d1 d2,
    cell_first (EOSComputeWaterDensity ty p T S mem) = Some d1 /\
    cell_second (EOSComputeWaterDensity ty p T S mem) = Some d2 /\
    has_derivative (fun q => cell_value (EOSComputeWaterDensity ty q T S mem)) p d1 /\
    has_derivative (fun q => cell_first (EOSComputeWaterDensity ty q T S mem)) p d2.
Proof. exact density_derivatives. Qed.
Print Assumptions C06_density_derivatives.

Theorem C06_density_derivative_at_reference : forall T S mem,
  exists d1 d2,
    cell_first (EOSComputeWaterDensity DensityExponential 101325 T S mem) = Some d1 /\
    cell_second (EOSComputeWaterDensity DensityExponential 101325 T S mem) = Some d2 /\
    has_right_derivative (fun q => cell_value (EOSComputeWaterDensity DensityExponential q T S mem)) 101325 d1 /\
    has_right_derivative (fun q => cell_first (EOSComputeWaterDensity DensityExponential q T S mem)) 101325 d2.
Proof. exact density_derivative_at_kink. Qed.
Print Assumptions C06_density_derivative_at_reference.

(** Every output is defined for the constant and exponential models; missing:
    the Batzle-Wang models, see the refutation. *)
Theorem C06_outputs_defined_partial : forall p T S,
  (forall ty, pressure_only ty -> defines_outputs (EOSComputeWaterDensity ty p T S)) /\
  defines_outputs (EOSComputeWaterViscosity ViscosityConstant p T S) /\
  defines_outputs (EOSComputeWaterEnthalpy EnthalpyConstant T p).
Proof. exact outputs_defined. Qed.
Print Assumptions C06_outputs_defined_partial.

(** The Batzle-Wang models leave both pressure derivatives as they were. *)
Theorem C06_outputs_defined_refuted : exists p T S,
  ~ defines_outputs (EOSComputeWaterDensity DensityBatzleWang p T S) /\
  ~ defines_outputs (EOSComputeWaterViscosity ViscosityBatzleWang p T S).
Proof.
  exists 101325, 25, 0. split; intros H;
    specialize (H (None, None, None) (None, Some 0, None)); discriminate H.
Qed.
Print Assumptions C06_outputs_defined_refuted.

(** The two pressure-dependent laws, in full. *)
Theorem C06_density_law : forall p T S mem,
  cell_value (EOSComputeWaterDensity DensityExponential p T S mem) = Some (compressed_density p)
  /\ cell_value (EOSComputeWaterDensity DensityConstant p T S mem) = Some 998.
Proof. exact density_law. Qed.
Print Assumptions C06_density_law.

(** A selector that names no model is an error, whatever is in memory. *)
Theorem C06_unknown_model_refused : forall p T S mem, EOSComputeWaterDensity DensityOther p T S mem = Err
  /\ EOSComputeWaterViscosity ViscosityOther p T S mem = Err /\ EOSComputeWaterEnthalpy EnthalpyOther T p mem = Err.
Proof. exact unknown_refused. Qed.
Print Assumptions C06_unknown_model_refused.

(** Constant viscosity and enthalpy come with their derivatives. *)
Theorem C06_constant_models : forall p T S mem, exists v h dv d2v dhp dht,
  EOSComputeWaterViscosity ViscosityConstant p T S mem = Ok (Some v, Some dv, Some d2v) /\ 0 < v /\
  EOSComputeWaterEnthalpy EnthalpyConstant T p mem = Ok (Some h, Some dhp, Some dht) /\
  has_derivative (fun q => cell_value (EOSComputeWaterViscosity ViscosityConstant q T S mem)) p dv /\
  has_derivative (fun q => cell_first (EOSComputeWaterViscosity ViscosityConstant q T S mem)) p d2v /\
  has_derivative (fun q => cell_value (EOSComputeWaterEnthalpy EnthalpyConstant T q mem)) p dhp /\
  has_derivative (fun t => cell_value (EOSComputeWaterEnthalpy EnthalpyConstant t p mem)) T dht.
Proof. exact constant_outputs. Qed.
Print Assumptions C06_constant_models.

Example C06_hypotheses_met : pressure_only DensityExponential /\ 200000 <> 101325.
Proof. split; [right; reflexivity|lra]. Qed.

Theorem C07_fraction_range : forall Psi mw den,
  0 <= Psi -> 0 <= mw ->
  exists f, EOSComputeSalinityFraction Psi mw den = Some f /\ 0 <= f < 1 /\ (f = 0 <-> Psi = 0 \/ mw = 0).
Proof. exact fraction_range. Qed.
Print Assumptions C07_fraction_range.

Theorem C07_fraction_increasing : forall Psi1 Psi2 mw den1 den2 f1 f2,
  0 <= Psi1 -> Psi1 < Psi2 -> 0 < mw ->
  EOSComputeSalinityFraction Psi1 mw den1 = Some f1 ->
  EOSComputeSalinityFraction Psi2 mw den2 = Some f2 -> f1 < f2.
Proof. exact fraction_increasing. Qed.
Print Assumptions C07_fraction_increasing.

Example C07_hypotheses_met : 0 <= 0.5 /\ 0.5 < 1 /\ 0 < 58.44.
Proof. lra. Qed.

Theorem C51_viscosity_positive : forall T S p mem,
  0 <= T -> 0 <= S ->
  exists v, cell_value (EOSComputeWaterViscosity ViscosityBatzleWang p T S mem) = Some v /\ 0 < v.
Proof. exact bw_viscosity_positive. Qed.
Print Assumptions C51_viscosity_positive.

(** Salt makes water denser for pressures up to 100 MPa, temperatures up to
    100 degrees and mass fractions up to 0.3. *)
Theorem C51_brine_denser_partial : forall P T S,
  0 <= P <= 100000000 -> 0 <= T <= 100 -> 0 < S <= 0.3 ->
  density_batzle_wang P T 0 < density_batzle_wang P T S.
Proof. exact bw_brine_denser. Qed.
Print Assumptions C51_brine_denser_partial.

(** Warming fresh water raises the computed viscosity, at every temperature. *)
Theorem C51_viscosity_temperature_refuted : forall p mem T1 T2,
  0 <= T1 -> T1 < T2 ->
  exists v1 v2,
    cell_value (EOSComputeWaterViscosity ViscosityBatzleWang p T1 0 mem) = Some v1 /\
    cell_value (EOSComputeWaterViscosity ViscosityBatzleWang p T2 0 mem) = Some v2 /\ v1 < v2.
Proof.
  intros p mem T1 T2 H1 H2.
  destruct (bw_viscosity_positive T1 0 p mem) as (v1 & E1 & _); [lra|lra|].
  destruct (bw_viscosity_positive T2 0 p mem) as (v2 & E2 & _); [lra|lra|].
  exists v1, v2. split; [exact E1|]. split; [exact E2|].
  exact (bw_fresh_viscosity_increases p T1 T2 mem v1 v2 H1 H2 E1 E2).
Qed.
Print Assumptions C51_viscosity_temperature_refuted.

(** The density added by salt is not the published one (times 1000, kg/m3). *)
Theorem C51_brine_excess_refuted : exists P T S,
  density_batzle_wang P T S - density_batzle_wang P T 0 <> 1000 * published_brine_excess (P / 1000000) T S.
Proof.
  exists 0, 1, 0.1. unfold density_batzle_wang, published_brine_excess. simpl. lra.
Qed.
Print Assumptions C51_brine_excess_refuted.

(** It is the published one at 0 degrees. *)
Theorem C51_brine_excess_partial : forall P S,
  density_batzle_wang P 0 S - density_batzle_wang P 0 0 = 1000 * published_brine_excess (P / 1000000) 0 S.
Proof. intros P S. unfold density_batzle_wang, published_brine_excess. field. Qed.
Print Assumptions C51_brine_excess_partial.

(** The density of fresh water is the published one at all pressures and temperatures. *)
Theorem C51_fresh_density : forall P T, density_batzle_wang P T 0 = 1000 * published_fresh_density (P / 1000000) T.
Proof. exact bw_fresh_density. Qed.
Print Assumptions C51_fresh_density.

(** The viscosity is the published one at 0 degrees. *)
Theorem C51_viscosity_cold_partial : forall p S mem, 0 <= S ->
  exists s8, fpow S 0.8 = Some s8 /\
  cell_value (EOSComputeWaterViscosity ViscosityBatzleWang p 0 S mem) = Some (0.001 * published_viscosity s8 0 S).
Proof. exact bw_viscosity_cold. Qed.
Print Assumptions C51_viscosity_cold_partial.

Example C51_hypotheses_met : 0 <= 101325 <= 100000000 /\ 0 <= 25 <= 100 /\ 0 < 0.035 <= 0.3.
Proof. lra. Qed.
