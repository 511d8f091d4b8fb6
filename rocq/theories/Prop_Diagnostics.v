(** C44: diagnostic fields. *)
From Coq Require Import Reals List Arith Lia Lra.
From Verif Require Import Prelude Arrays Diagnostics SpecDiagnostics DiagnosticsProofs.
Import ListNotations.
Local Open Scope R_scope.

(** The saturation reported for the owned cells, in their local order, is the
    current saturation; nothing depends on the previous contents of the vector. *)
Theorem C44_saturation : forall is_local S rho V n v,
  length is_local = n -> length S = n -> length rho = n -> length V = n ->
  length v = (2 * length (owned_cells is_local n))%nat ->
  exists d, UpdateDiagnostics is_local S rho V n v = Ok d /\ length d = length v
    /\ GetLiquidSaturation true true d = Ok (values S (owned_cells is_local n)).
Proof.
  intros is_local S rho V n v Li LS Lr LV Lv.
  destruct (diagnostics_exact is_local S rho V n v Li LS Lr LV Lv) as [d [E [L [A _]]]]. exists d. auto.
Qed.
Print Assumptions C44_saturation.

(** The mass is right where the product of porosity and saturation is 1. *)
Theorem C44_mass_partial : forall is_local S rho por V n v,
  length is_local = n -> length S = n -> length rho = n -> length V = n ->
  length v = (2 * length (owned_cells is_local n))%nat ->
  exists d mass, UpdateDiagnostics is_local S rho V n v = Ok d /\ GetLiquidMass true true d = Ok mass
    /\ length mass = length (owned_cells is_local n)
    /\ forall i c, nth_error (owned_cells is_local n) i = Some c -> nth c por 0 * nth c S 0 = 1 ->
         nth_error mass i = Some (stored_mass rho por S V c).
Proof.
  intros is_local S rho por V n v Li LS Lr LV Lv.
  destruct (diagnostics_exact is_local S rho V n v Li LS Lr LV Lv) as [d [E [L [_ B]]]].
  exists d. eexists. split; [exact E|]. split; [exact B|]. split; [apply map_length|].
  intros i c Hc P. rewrite nth_error_map, Hc. simpl. f_equal. unfold stored_mass.
  transitivity (nth c rho 0 * (nth c por 0 * nth c S 0) * nth c V 0); [rewrite P|]; ring.
Qed.
Print Assumptions C44_mass_partial.

(** A unit cell with porosity 1/4, half saturated with water of density 1000,
    holds 125 units of mass and reports 1000: porosity and saturation are missing. *)
Theorem C44_mass_refuted : exists is_local S rho por V n v d,
  length is_local = n /\ length S = n /\ length rho = n /\ length por = n /\ length V = n
  /\ length v = (2 * length (owned_cells is_local n))%nat
  /\ UpdateDiagnostics is_local S rho V n v = Ok d /\ GetLiquidMass true true d = Ok [1000]
  /\ map (stored_mass rho por S V) (owned_cells is_local n) = [125].
Proof.
  exists [true], [1/2], [1000], [1/4], [1], 1%nat, [0; 0]. eexists. repeat (split; [reflexivity|]).
  split; [|unfold stored_mass; simpl; f_equal; lra].
  unfold GetLiquidMass, ExtractDiagnosticField. cbn. f_equal. f_equal. ring.
Qed.
Print Assumptions C44_mass_refuted.

(** Refused before setup and where there are no diagnostics. *)
Theorem C44_refused : forall setup has_op index d vec, setup = false \/ has_op = false ->
  ExtractDiagnosticField setup has_op index d vec = Err.
Proof. exact diagnostics_refused. Qed.
Print Assumptions C44_refused.

(** Two owned cells around a ghost. *)
Example C44_example : exists d,
  UpdateDiagnostics [true; false; true] [1/2; 1; 1/4] [2; 3; 4] [1; 1; 2] 3 [0; 0; 0; 0] = Ok d
  /\ GetLiquidSaturation true true d = Ok [1/2; 1/4].
Proof. destruct (C44_saturation [true; false; true] [1/2; 1; 1/4] [2; 3; 4] [1; 1; 2] 3 [0; 0; 0; 0]) as [d [E [_ H]]]; try reflexivity. exists d. split; assumption. Qed.
