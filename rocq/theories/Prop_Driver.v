(** C100: what the driver prepares before the first time step. *)
From Coq Require Import Reals List Bool Arith Lra.
From Verif Require Import Lifecycle Prelude Arrays Driver SpecDriver DriverProofs.
Import ListNotations.
Local Open Scope R_scope.

(** Exactly seven combinations of mode, discretization and solver can be started; every other
    one is refused with an error, and so is a request for two kinds of initial field. *)
Theorem C100_combinations :
  (forall m d w draw o t n,
     (opt_random o = true -> init_file o = None) ->
     (forall f, init_file o = Some f -> exists v, f = Some v /\ length v = n) ->
     ((exists p, start m d w draw o t n = Ok p) <-> In (m, d, w) supported) /\
     (~ In (m, d, w) supported -> start m d w draw o t n = Err)) /\
  (forall m d w draw o t n f, opt_random o = true -> init_file o = Some f -> start m d w draw o t n = Err).
Proof. exact (conj combinations both_refused). Qed.
Print Assumptions C100_combinations.

(** The residual handed to the solver is the one written for the mode, the discretization
    and the solver in use. *)
Theorem C100_residual : forall m d w draw o t n p,
  start m d w draw o t n = Ok p -> residual_for (p_residual p) = (m, d, w).
Proof. exact residual_right. Qed.
Print Assumptions C100_residual.

(** The functions called by the driver also accept, on their own, a steady solve of the
    coupled water and heat mode, with the residual of the water-only mode. *)
Theorem C100_residual_refuted : exists r,
  assign_ops TH MPFA_O no_ops <> None /\ SetSNESFunction TH MPFA_O = Ok r /\ residual_for r = (RICHARDS, MPFA_O, TDySNES).
Proof. exists MPFAOSNESFunction. split; [discriminate|]. split; reflexivity. Qed.
Print Assumptions C100_residual_refuted.

(** The Jacobian is the matching one too, for the water-only and the water and heat modes
    with the two-point scheme or the plain multi-point scheme. *)
Theorem C100_jacobian_partial : forall m d w draw o t n p,
  start m d w draw o t n = Ok p -> In m [RICHARDS; TH] /\ In d [MPFA_O; FV_TPF] ->
  exists j, p_jacobian p = Some j /\ jacobian_for j = (m, d, w).
Proof. exact jacobian_right. Qed.
Print Assumptions C100_jacobian_partial.

(** In all other combinations it is not: a run with salt gets the Jacobian of the water-only
    mode, and the two further time formulations get none. *)
Theorem C100_jacobian_refuted :
  (forall m d w draw o t n p, start m d w draw o t n = Ok p -> ~ (In m [RICHARDS; TH] /\ In d [MPFA_O; FV_TPF]) ->
     forall j, p_jacobian p = Some j -> jacobian_for j <> (m, d, w)) /\
  (forall draw o t n, opt_random o = false -> init_file o = None ->
     (exists p, start SALINITY MPFA_O TDySNES draw o t n = Ok p /\ p_jacobian p = Some MPFAOSNESJacobian) /\
     (exists p, start RICHARDS MPFA_O_DAE TDyTS draw o t n = Ok p /\ p_jacobian p = None) /\
     (exists p, start RICHARDS MPFA_O_TRANSIENTVAR TDyTS draw o t n = Ok p /\ p_jacobian p = None)).
Proof.
  split; [exact jacobian_wrong|]. intros draw o t n R F.
  split; [|split]; unfold start; rewrite R, F; cbn [andb assign_ops]; unfold InitializeTDy; cbn [unsupported SetSNESFunction SetSNESJacobian SetIFunction SetIJacobian bind Initialize];
    unfold RichardsInitialize, SalinityInitialize; rewrite R, ?F; cbn [bind]; eexists; (split; [reflexivity|reflexivity]).
Qed.
Print Assumptions C100_jacobian_refuted.

(** A random initial field has as many entries as there are unknowns and every one of them
    is a plausible value of its quantity. *)
Theorem C100_random_field : forall m d w draw o t n p,
  unit_interval draw -> start m d w draw o t n = Ok p -> opt_random o = true -> ic_file o = None ->
  length (soln (p_state p)) = n /\ plausible_state m (soln (p_state p)).
Proof. exact random_plausible. Qed.
Print Assumptions C100_random_field.

(** The default initial field is 101325 everywhere: also for temperatures and mass
    fractions, where that is not a possible value. *)
Theorem C100_default_field_refuted : forall m d w draw o t n p,
  start m d w draw o t n = Ok p -> opt_random o = false -> ic_file o = None -> (m = RICHARDS -> init_file o = None) ->
  soln (p_state p) = repeat 101325 n /\
  (m = RICHARDS -> plausible_state m (soln (p_state p))) /\
  (m <> RICHARDS -> (2 <= n)%nat -> ~ plausible_state m (soln (p_state p))).
Proof.
  intros m d w draw o t n p H R C F. pose proof (default_state m d w draw o t n p H R C F) as E. rewrite E.
  split; [reflexivity|]. split.
  - intros -> i x X. apply nth_error_In, repeat_spec in X. rewrite X. cbn. lra.
  - intros Hm Hn P. destruct n as [|[|n]]; [exfalso; inversion Hn|exfalso; inversion Hn as [|? K]; inversion K|].
    specialize (P 1%nat 101325 eq_refl). destruct m; [congruence| |]; cbn in P; lra.
Qed.
Print Assumptions C100_default_field_refuted.

(** A water-only run takes its initial field from the given file, for the current and the
    previous solution. *)
Theorem C100_file_field_partial : forall d w draw o t n p f,
  start RICHARDS d w draw o t n = Ok p -> init_file o = Some f -> ic_file o = None ->
  exists v, f = Some v /\ p_state p = State v v.
Proof. exact from_init_file. Qed.
Print Assumptions C100_file_field_partial.

(** The other two modes ignore that file, readable or not. *)
Theorem C100_file_field_refuted : forall m d w draw o t n p f,
  m <> RICHARDS -> start m d w draw o t n = Ok p -> init_file o = Some f -> ic_file o = None ->
  soln (p_state p) = repeat 101325 n.
Proof.
  intros m d w draw o t n p f M H F C. apply (default_state m d w draw o t n p H); [|exact C|congruence].
  destruct (opt_random o) eqn:R; [|reflexivity]. rewrite (both_refused m d w draw o t n f R F) in H. discriminate H.
Qed.
Print Assumptions C100_file_field_refuted.

(** A readable file of initial conditions of the right length wins over all other options,
    in every mode. *)
Theorem C100_initial_conditions_partial : forall m d w draw o t n p v,
  start m d w draw o t n = Ok p -> ic_file o = Some (Some v) -> length v = n -> p_state p = State v v.
Proof. exact from_ic_file. Qed.
Print Assumptions C100_initial_conditions_partial.

(** A file of initial conditions that is missing or of the wrong length is not reported: the
    run starts as if the option had not been given. *)
Theorem C100_initial_conditions_refuted : forall m d w draw o t n f,
  (forall v, f = Some v -> length v <> n) ->
  start m d w draw (Options (opt_random o) (init_file o) (Some f) (porosity_file o) (permeability_file o)) t n =
  start m d w draw (Options (opt_random o) (init_file o) None (porosity_file o) (permeability_file o)) t n.
Proof. exact ic_ignored. Qed.
Print Assumptions C100_initial_conditions_refuted.

(** With the time stepper of the code, the previous solution starts as the initial one. *)
Theorem C100_previous_partial : forall m d draw o t n p,
  start m d TDySNES draw o t n = Ok p -> soln_prev (p_state p) = soln (p_state p).
Proof. exact previous_snes. Qed.
Print Assumptions C100_previous_partial.

(** With PETSc's time stepper it is zero unless the initial field comes from a file; the
    output of the initial state shows these zeros (C99). *)
Theorem C100_previous_refuted :
  (forall m d draw o t n p, start m d TDyTS draw o t n = Ok p -> (m = RICHARDS -> init_file o = None) -> ic_file o = None ->
     soln_prev (p_state p) = repeat 0 n) /\
  (exists p, start RICHARDS MPFA_O TDyTS (fun _ _ => 0) (Options false None None false false) (fun _ => None) 1 = Ok p /\
     soln (p_state p) = [101325] /\ soln_prev (p_state p) = [0]).
Proof. split; [exact previous_ts|]. eexists. split; [reflexivity|]. split; reflexivity. Qed.
Print Assumptions C100_previous_refuted.

(** After the start every property the mode looks at is set; a property the caller has set is
    kept, except for the molecular weight of salt; the others come from the file that was
    named, or else from the options; nothing else is set. *)
Theorem C100_materials_partial : forall m d w draw o t n p, start m d w draw o t n = Ok p ->
  (forall q, In q (needed m) -> p_table p q <> None) /\
  (forall q x, t q = Some x -> (m = SALINITY -> q <> SalineMolecularWeight) -> p_table p q = Some x) /\
  (forall q, t q = None -> ~ In q (needed m) -> p_table p q = None) /\
  (t Porosity = None -> p_table p Porosity = Some (if porosity_file o then File else Option_)) /\
  (t Permeability = None -> p_table p Permeability = Some (if permeability_file o then File else Option_)).
Proof. exact start_materials. Qed.
Print Assumptions C100_materials_partial.

(** The molecular weight of salt set by the caller is always replaced by the option's. *)
Theorem C100_materials_refuted :
  (forall d w draw o t n p, start SALINITY d w draw o t n = Ok p -> p_table p SalineMolecularWeight = Some Option_) /\
  (exists p, start SALINITY MPFA_O TDySNES (fun _ _ => 0) (Options false None None false false)
               (fun q => match q with SalineMolecularWeight => Some (User 7) | _ => None end) 2 = Ok p).
Proof. split; [exact weight_lost|]. eexists. reflexivity. Qed.
Print Assumptions C100_materials_refuted.

(** A run of two cells with heat and a random initial field. *)
Example C100_example : exists p,
  start TH MPFA_O TDyTS (fun k i => (INR k + INR i) / 4) (Options true None None true false)
    (fun q => match q with SoilDensity => Some (User 3) | _ => None end) 4 = Ok p /\
  p_residual p = MPFAOIFunction_TH /\ p_jacobian p = Some MPFAOIJacobian_TH /\
  nth_error (soln (p_state p)) 0 = Some (10000 + 0 / 4 * (100000 - 10000)) /\
  nth_error (soln (p_state p)) 3 = Some (15 + (1 + 3) / 4 * (35 - 15)) /\
  p_table p SoilDensity = Some (User 3) /\ p_table p Porosity = Some File /\ p_table p ThermalConductivity = Some Option_.
Proof.
  eexists. split; [reflexivity|]. split; [reflexivity|]. split; [reflexivity|]. cbn [p_state soln]. 
  split; [|split; [|split; [reflexivity|split; reflexivity]]]; cbn; f_equal; lra.
Qed.
