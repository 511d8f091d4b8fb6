(** C59-C62: the state computed from the solution. *)
From Coq Require Import Reals List Arith Lia Lra.
From Coquelicot Require Import Coquelicot.
From Verif Require Import Prelude Arrays CharCurves SpecCurves CharCurveSet SpecCurveSet Eos SpecEos State SpecState StateProofs.
From Verif Require Fvtpf MpfaoTs Transport SpecFvtpf SpecMpfaoTs SpecTransport.
Import ListNotations.
Local Open Scope R_scope.

(** ** C59 *)

(** Every cell gets the saturation, relative permeability and permeability of its
    own curves and material at its own pressure, in all four modes. *)
Theorem C59_state : forall md g N sc kc mats U s, curves_set g N sc kc -> known md g -> sized md N mats s -> (unknowns md * N <= length U)%nat ->
  exists s', UpdateState md g mats N U s = Ok s' /\ sized md N mats s' /\
    (forall c f, nth_error mats c = Some f ->
      exists p, nth_error (points s') c = Some p /\ wet_state g (sc c) (kc c) f (pressure md U c) p
        /\ nth_error (P_vec s') c = Some (pressure md U c)
        /\ (unknowns md = 2%nat -> nth_error (aux s') c = Some (second md U c))) /\
    (forall c, (N <= c)%nat -> nth_error (P_vec s') c = nth_error (P_vec s) c).
Proof. exact state_computed. Qed.
Print Assumptions C59_state.

(** It depends on nothing else: neither on the values in other cells nor on the
    state left by earlier evaluations. *)
Theorem C59_local : forall md g N sc kc mats U V s t c, curves_set g N sc kc -> known md g -> simple_water g ->
  sized md N mats s -> sized md N mats t -> (unknowns md * N <= length U)%nat -> (unknowns md * N <= length V)%nat ->
  (c < N)%nat -> pressure md U c = pressure md V c -> second md U c = second md V c ->
  exists s' t' p q, UpdateState md g mats N U s = Ok s' /\ UpdateState md g mats N V t = Ok t'
    /\ nth_error (points s') c = Some p /\ nth_error (points t') c = Some q /\ same_state md p q.
Proof. exact update_local. Qed.
Print Assumptions C59_local.

(** Salt content, density and viscosity of brine follow the salinity of the cell
    (for all equations of state). *)
Theorem C59_salt : forall g N sc kc mats U s c f, curves_set g N sc kc -> known Salinity g -> sized Salinity N mats s ->
  (2 * N <= length U)%nat -> nth_error mats c = Some f ->
  exists s' p, UpdateState Salinity g mats N U s = Ok s' /\ nth_error (points s') c = Some p
    /\ (nth (2 * c + 1) U 0 * mu f + 999 <> 0 ->
        exists x, p_salt p = Some x /\ x = nth (2 * c + 1) U 0 * mu f / (nth (2 * c + 1) U 0 * mu f + 999)
        /\ fst (fst (p_rho p)) = cell_value (EOSComputeWaterDensity (den_type g) (nth (2 * c) U 0) (Tref g) x (None, None, None))
        /\ fst (fst (p_vis p)) = cell_value (EOSComputeWaterViscosity (vis_type g) (nth (2 * c) U 0) (Tref g) x (None, None, None))).
Proof. exact salt_content. Qed.
Print Assumptions C59_salt.

(** The curves assigned during setup satisfy the hypothesis, for any number of cells. *)
Theorem C59_default_curves : forall g nc m alpha x0 x1 x2 dx c0 c1 c2 c3,
  exists a b, default_curves nc m alpha [x0; x1; x2; dx; c0; c1; c2; c3] = Ok (a, b) /\
    (sat g = a -> relperm g = b -> curves_set g nc (fun _ => VanGenuchten m alpha) (fun _ => Smoothed m x0 x1 x2 dx c0 c1 c2 c3)).
Proof. exact default_ok. Qed.
Print Assumptions C59_default_curves.

Example C59_example : exists g sc kc mats s, curves_set g 2 sc kc /\ (forall md, known md g /\ sized md 2 mats s) /\ simple_water g
  /\ forall U, length U = 2%nat -> exists s' p, UpdateState Richards g mats 2 U s = Ok s' /\ nth_error (points s') 0 = Some p
       /\ (101325 <= nth 0 U 0 -> fst (fst (p_sat p)) = Some 1).
Proof.
  destruct example_curves as (a & b & c0 & c1 & c2 & c3 & _ & HC & _).
  exists (example_setting a b). eexists. eexists. exists (repeat example_material 2), (fresh 2 2).
  assert (HK : forall md, known md (example_setting a b)) by (intros md; repeat split; discriminate).
  assert (HS : forall md, sized md 2 (repeat example_material 2) (fresh 2 2)) by (intros md; apply fresh_sized; reflexivity || lia).
  split; [exact HC|]. split; [intros md; split; [apply HK|apply HS]|]. split; [split; [left; reflexivity|reflexivity]|].
  intros U LU. destruct (state_computed Richards _ 2 _ _ _ U _ HC (HK _) (HS _)) as (s' & E & _ & H & _); [simpl; lia|].
  destruct (H 0%nat example_material eq_refl) as (p & Np & (Hsat & _) & _).
  exists s', p. split; [exact E|]. split; [exact Np|]. intros HP. rewrite Hsat. unfold pressure. simpl Nat.mul.
  unfold sat_at, saturation, van_genuchten. cbn [example_setting Pref Sr example_material].
  destruct (Rle_dec (101325 - nth 0 U 0) 0); [reflexivity|lra].
Qed.

(** ** C60 *)

(** As the pressure of one cell varies, its stored derivatives are the derivatives
    of its stored state: exactly what the Jacobians need (hypothesis [consistent]
    of C32 and C42).  Missing: the reference pressure and the pressure where the
    exponential density sets in, and the Batzle-Wang models. *)
Theorem C60_consistent_partial : forall md g N sc kc mats U s k f, curves_set g N sc kc -> known md g -> simple_water g -> sized md N mats s ->
  (unknowns md * N <= length U)%nat -> nth_error mats k = Some f -> 0 <= Sr f < 1 -> admissible_sat (sc k) -> admissible_law (kc k) ->
  pressure md U k <> Pref g -> (den_type g = DensityExponential -> pressure md U k <> 101325) ->
  exists c e,
    (forall x, exists s' p, UpdateState md g mats N (upd U (unknowns md * k) x) s = Ok s' /\ nth_error (points s') k = Some p
       /\ nth_error (P_vec s') k = Some x /\ mpfa_cell p = Some (c x) /\ two_point_cell x p = Some (e x))
    /\ SpecMpfaoTs.consistent c (pressure md U k) /\ SpecFvtpf.consistent e (pressure md U k).
Proof. exact state_consistent. Qed.
Print Assumptions C60_consistent_partial.

(** With the Batzle-Wang density the stored derivative is 0 after any sequence of
    evaluations, although the density varies with pressure. *)
Theorem C60_brine_refuted : forall md g N sc kc mats Us ncol, curves_set g N sc kc -> known md g -> den_type g = DensityBatzleWang ->
  length mats = N -> (N <= ncol)%nat -> (forall U, In U Us -> (unknowns md * N <= length U)%nat) ->
  (exists s, evaluate md g mats N Us (fresh N ncol) = Ok s /\ forall c p, nth_error (points s) c = Some p -> snd (fst (p_rho p)) = Some 0)
  /\ forall P T, 0 <= P <= 1000000 -> 0 <= T <= 100 -> exists d, is_derive (fun q => density_batzle_wang q T 0) P d /\ d <> 0.
Proof.
  intros. split; [exact (brine_derivative_zero md g N sc kc mats Us ncol H H0 H1 H2 H3 H4)|exact brine_varies].
Qed.
Print Assumptions C60_brine_refuted.

Example C60_example : exists g sc kc mats s c e, curves_set g 2 sc kc
  /\ (forall x, exists s' p, UpdateState Richards g mats 2 [x; 90000] s = Ok s' /\ nth_error (points s') 0 = Some p /\ mpfa_cell p = Some (c x) /\ two_point_cell x p = Some (e x))
  /\ SpecMpfaoTs.consistent c 90000 /\ SpecFvtpf.consistent e 90000.
Proof.
  destruct example_curves as (a & b & c0 & c1 & c2 & c3 & _ & HC & HL).
  exists (example_setting a b). eexists. eexists. exists (repeat example_material 2), (fresh 2 2).
  destruct (state_consistent Richards _ 2 _ _ (repeat example_material 2) [90000; 90000] (fresh 2 2) 0 example_material HC) as (c & e & H1 & H2 & H3).
  - repeat split; discriminate.
  - split; [left; reflexivity|reflexivity].
  - apply fresh_sized; reflexivity || lia.
  - simpl; lia.
  - reflexivity.
  - simpl; lra.
  - simpl; lra.
  - exact HL.
  - unfold pressure; simpl; lra.
  - discriminate.
  - exists c, e. split; [exact HC|]. split; [|split; [exact H2|exact H3]].
    intros x. destruct (H1 x) as (s' & p & E & Np & _ & E1 & E2). exists s', p. repeat split; assumption.
Qed.

(** ** C61 *)

(** Without ghost cells the state before a time step is that of the previous solution. *)
Theorem C61_serial_partial : forall md g N sc kc mats U s, curves_set g N sc kc -> known md g -> sized md N mats s -> length U = (unknowns md * N)%nat ->
  exists s', presolve_state md g mats N U s = Ok s' /\
    forall c f, nth_error mats c = Some f -> exists p, nth_error (points s') c = Some p /\ wet_state g (sc c) (kc c) f (pressure md U c) p.
Proof.
  intros md g N sc kc mats U s HC HK HS LU.
  destruct (state_computed md g N sc kc mats U s HC HK HS) as (s' & E & _ & H & _); [lia|].
  exists s'. split; [exact E|]. intros c f Nf. destruct (H c f Nf) as (p & Np & W & _). exists p. split; assumption.
Qed.
Print Assumptions C61_serial_partial.

(** On any process with ghost cells it reads beyond the end of an array: the
    curves cover all cells, the array of capillary pressures only the owned ones. *)
Theorem C61_ghosts_refuted : forall md g N n sc kc mats U s, curves_set g N sc kc -> (n < N)%nat -> length U = (unknowns md * n)%nat ->
  presolve_state md g mats n U s = UB.
Proof. exact presolve_ghosts. Qed.
Print Assumptions C61_ghosts_refuted.

(** So does the salinity mode, which reads the solution of all cells from a vector
    that holds the owned ones. *)
Theorem C61_salinity_ghosts_refuted : forall g N n mats U s, (n < N)%nat -> length U = (2 * n)%nat -> presolve_state_salinity g mats N U s = UB.
Proof. exact presolve_salinity_ghosts. Qed.
Print Assumptions C61_salinity_ghosts_refuted.

Example C61_example : exists g sc kc, curves_set g 2 sc kc /\ presolve_state Richards g (repeat example_material 2) 1 [90000] (fresh 2 2) = UB.
Proof.
  destruct example_curves as (a & b & c0 & c1 & c2 & c3 & _ & HC & _).
  exists (example_setting a b). eexists. eexists. split; [exact HC|].
  apply (presolve_ghosts Richards _ 2 1 _ _ _ _ _ HC); [lia|reflexivity].
Qed.

(** ** C62 *)

(** The internal energy is enthalpy minus P/rho. *)
Theorem C62_internal_energy : forall g N sc kc mats U s c f, curves_set g N sc kc -> known TH g -> sized TH N mats s ->
  (2 * N <= length U)%nat -> nth_error mats c = Some f ->
  exists s' p, UpdateState TH g mats N U s = Ok s' /\ nth_error (points s') c = Some p /\ p_Kappa p = Kappa0 f /\
    exists h, fst (fst (p_h p)) = Some h /\
      forall r, fst (fst (p_rho p)) = Some r -> r <> 0 -> p_u p = Some (h - nth (2 * c) U 0 / r).
Proof.
  intros g N sc kc mats U s c f HC HK HS LU Nf.
  destruct (update_ok TH g N sc kc mats U s HC HK HS LU) as (s' & Es & _ & Hs & _).
  destruct HS as [Lm [Ls _]].
  assert (Hc : (c < N)%nat) by (rewrite <- Lm; apply nth_lt with f; exact Nf).
  destruct (rd_ok (points s) c) as [p [_ Np]]; [lia|].
  destruct (Hs c p f Np Nf) as (p' & Ep & Np'). destruct (updated_heat g f _ _ _ p' Ep) as (B1 & B2 & B3).
  exists s', p'. split; [exact Es|]. split; [exact Np'|]. split; [exact B2|]. eexists. rewrite B1. split; [reflexivity|exact B3].
Qed.
Print Assumptions C62_internal_energy.

(** Its derivatives are never assigned: they are 0 after any sequence of evaluations ... *)
Theorem C62_never_assigned : forall md g N sc kc mats Us ncol, curves_set g N sc kc -> known md g -> length mats = N -> (N <= ncol)%nat ->
  (forall U, In U Us -> (unknowns md * N <= length U)%nat) ->
  exists s, evaluate md g mats N Us (fresh N ncol) = Ok s /\ sized md N mats s /\
    forall c p, nth_error (points s) c = Some p -> p_du_dP p = 0 /\ p_du_dT p = 0 /\ p_drho_dT p = 0 /\ p_dS_dT p = 0.
Proof. exact heat_never_assigned. Qed.
Print Assumptions C62_never_assigned.

(** ... so that the rate of change of energy in the residual is not that of the
    stored energy when the pressure of a cell changes (constant density, any curves). *)
Theorem C62_rate_refuted : forall g N sc kc mats Us ncol U k f rk rs cs src T, curves_set g N sc kc -> known TH g ->
  den_type g = DensityConstant -> vis_type g = ViscosityConstant -> length mats = N -> (N <= ncol)%nat ->
  (forall V, In V Us -> (2 * N <= length V)%nat) -> (2 * N <= length U)%nat ->
  nth_error mats k = Some f -> 0 <= Sr f < 1 -> admissible_sat (sc k) -> admissible_law (kc k) -> nth (2 * k) U 0 <> Pref g ->
  MpfaoTs.k_por rk * MpfaoTs.k_vol rk <> 0 ->
  exists s c e, evaluate TH g mats N Us (fresh N ncol) = Ok s
   /\ (forall x, exists s' p, UpdateState TH g mats N (upd U (2 * k) x) s = Ok s' /\ nth_error (points s') k = Some p
       /\ mpfa_cell p = Some (c x) /\ heat_cell rs cs src p = Some (e x))
   /\ ~ is_derive (fun x => SpecTransport.stored_energy (c x) (e x) rk T) (nth (2 * k) U 0)
          (SpecTransport.energy_rate (c (nth (2 * k) U 0)) (e (nth (2 * k) U 0)) rk 1 0).
Proof. exact energy_rate_wrong. Qed.
Print Assumptions C62_rate_refuted.

(** Density, viscosity, enthalpy and internal energy of water do not depend on the
    temperature unknown, whichever equations of state are selected. *)
Theorem C62_temperature_refuted : forall g N sc kc mats U V s c, curves_set g N sc kc -> known TH g -> sized TH N mats s ->
  (2 * N <= length U)%nat -> (2 * N <= length V)%nat -> (c < N)%nat -> nth (2 * c) U 0 = nth (2 * c) V 0 ->
  exists s' t' p q, UpdateState TH g mats N U s = Ok s' /\ UpdateState TH g mats N V s = Ok t'
    /\ nth_error (points s') c = Some p /\ nth_error (points t') c = Some q /\ p_rho p = p_rho q /\ p_vis p = p_vis q /\ p_h p = p_h q /\ p_u p = p_u q.
Proof. exact temperature_ignored. Qed.
Print Assumptions C62_temperature_refuted.

Example C62_example : exists g sc kc, curves_set g 2 sc kc /\ known TH g /\ den_type g = DensityConstant /\ vis_type g = ViscosityConstant
  /\ admissible_sat (sc 0%nat) /\ admissible_law (kc 0%nat) /\ sized TH 2 (repeat example_material 2) (fresh 2 2).
Proof.
  destruct example_curves as (a & b & c0 & c1 & c2 & c3 & _ & HC & HL).
  exists (example_setting a b), (fun _ => VanGenuchten 0.5 (1/10000)), (fun _ => Smoothed 0.5 0.995 0.99 1 0.005 c0 c1 c2 c3).
  split; [exact HC|]. split; [repeat split; discriminate|]. split; [reflexivity|]. split; [reflexivity|]. split; [simpl; lra|]. split; [exact HL|].
  apply fresh_sized; reflexivity || lia.
Qed.
