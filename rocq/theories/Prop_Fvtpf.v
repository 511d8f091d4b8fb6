(** C31-C37: the two-point flux scheme. *)
From Coq Require Import Reals ZArith List Bool Arith Lia Lra.
From Coquelicot Require Import Coquelicot.
From Verif Require Import Prelude Arrays Fvtpf SpecFvtpf FvtpfProofs FvtpfDerivProofs FvtpfSumProofs FvtpfTotalProofs
  FvtpfAssemblyProofs FvtpfExtraProofs FvtpfExamples.
Import ListNotations.
Local Open Scope R_scope.

(** ** C31 *)

(** A residual entry is the balance of its cell, with one flow per interior face
    used on both sides with opposite signs. *)
Theorem C31_cell_balance : forall g cs bs prev junk n r i x,
  SNESFunction g cs bs prev junk n = Ok r -> nth_error r i = Some (Some x) ->
  exists q b acc,
    x = cell_balance g q b acc (fun i => nth i prev 0) (src_of g) i
    /\ (forall j, (j < length (faces g))%nat -> leaves g j i || enters g j i = true ->
          ignore_error (RichardsResidual g cs j (junk j)) (junk j) = Ok (Some (q j)))
    /\ (forall j, (j < length (faces g))%nat -> bounds g j i = true -> boundary_result g cs bs j = Ok (Some (b j)))
    /\ (local_cell g i = true -> acc_of g cs i = Some (acc i)).
Proof. intros g cs bs prev junk n r i x H Hi. eexists _, _, _. exact (cell_residual_proof g cs bs prev junk n r i x H Hi). Qed.
Print Assumptions C31_cell_balance.

(** The entries of a process add up to the gain of its cells, the flow towards
    other processes, and the boundary flow. *)
Theorem C31_conservation : forall g cs bs prev junk n vs,
  SNESFunction g cs bs prev junk n = Ok (map Some vs) ->
  (forall i, (n <= i)%nat -> local_cell g i = false) ->
  fold_right Rplus 0 vs =
    total (fun i => if local_cell g i then val (acc_of g cs i) - nth i prev 0 - src_of g i else 0) n
    + total (fun j => crossing g j * res_of (interior_result g cs junk j)) (length (faces g))
    - total (fun j => coeff (boundary_open g j) * res_of (boundary_result g cs bs j)) (length (faces g)).
Proof. exact conservation_proof. Qed.
Print Assumptions C31_conservation.

(** On one process the interior flows cancel, whatever they are. *)
Theorem C31_conservation_serial : forall g cs bs prev junk n vs,
  SNESFunction g cs bs prev junk n = Ok (map Some vs) ->
  (forall i, (n <= i)%nat -> local_cell g i = false) ->
  (forall f, In f (faces g) -> f_local f = true -> f_internal f = true -> owned g (f_up f) = true /\ owned g (f_dn f) = true) ->
  (forall f, In f (faces g) -> f_local f = true -> f_internal f = false -> f_bc f = Neumann) ->
  fold_right Rplus 0 vs =
    total (fun i => if local_cell g i then val (acc_of g cs i) - nth i prev 0 - src_of g i else 0) n.
Proof.
  intros g cs bs prev junk n vs H Hl Ho Hn. rewrite (conservation_proof g cs bs prev junk n vs H Hl).
  rewrite (total_ext (fun j => crossing g j * _) (fun _ => 0)) by (intros j _; rewrite (crossing_owned g j Ho); ring).
  rewrite (total_ext (fun j => coeff (boundary_open g j) * _) (fun _ => 0)).
  - rewrite !total_zero. ring.
  - intros j _. unfold boundary_open. destruct (nth_error (faces g) j) as [f|] eqn:F; [|simpl; ring].
    destruct (f_local f) eqn:L; [|simpl; ring]. destruct (f_internal f) eqn:I; [simpl; ring|].
    unfold open_face. rewrite (Hn f (nth_error_In _ _ F) L I). simpl. ring.
Qed.
Print Assumptions C31_conservation_serial.

(** The residual of a well-formed problem whose interior faces can conduct is finite. *)
Theorem C31_residual_defined : forall g n nb cs bs prev junk,
  good_grid g n nb -> length cs = n -> (forall c, In c cs -> good_cell c) ->
  length bs = nb -> (forall b, In b bs -> good_bnd b) -> wet g cs -> length prev = n ->
  exists vs, SNESFunction g cs bs prev junk n = Ok (map Some vs) /\ length vs = n.
Proof. intros g n nb cs bs prev junk G Lc Gc Lb Gb W Lp. exact (residual_defined_proof g n nb cs bs G Lc Gc Lb Gb prev junk W Lp). Qed.
Print Assumptions C31_residual_defined.

Example C31_example : forall P P', exists vs,
  SNESFunction ex_grid [water P 1; water P' 1] [] [0; 0] (fun _ => None) 2 = Ok (map Some vs)
  /\ fold_right Rplus 0 vs = 2 * (1000 * (1/4) / 60).
Proof.
  intros P P'.
  destruct (C31_residual_defined ex_grid 2 0 [water P 1; water P' 1] [] [0; 0] (fun _ => None)) as [vs [E L]];
    [apply ex_grid_good|reflexivity|apply ex_cells_good; lra|reflexivity|intros b []|apply ex_wet|reflexivity|].
  exists vs. split; [exact E|]. rewrite (C31_conservation_serial _ _ _ _ _ _ _ E).
  - simpl. unfold src_of, acc_of, Accumulation. simpl. rewrite !fdiv_ok by lra. simpl. lra.
  - intros i Hi. unfold local_cell. destruct i as [|[|i]]; try lia. destruct i; reflexivity.
  - intros f [<-|[<-|[]]] _ I; [|discriminate I]. split; reflexivity.
  - intros f [<-|[<-|[]]] _ I; [discriminate I|reflexivity].
Qed.

(** ** C32 *)

(** Column [k] of the assembled matrix, for a cell without open boundary faces:
    entry (i,k) is the derivative of residual entry i with respect to the pressure
    of cell k. *)
Theorem C32_assembled_jacobian : forall g n nb cs bs prev junk junkJ junkb k c p i,
  good_grid g n nb -> length cs = n -> length bs = nb -> length prev = n ->
  (forall i c', nth_error cs i = Some c' -> i <> k -> good_cell c') -> (forall b, In b bs -> good_bnd b) ->
  (k < n)%nat -> (i < n)%nat ->
  consistent c p -> locally p (fun x => good_cell (c x)) ->
  wet g (upd cs k (c p)) -> c_S (c p) <> threshold ->
  (forall f, In f (faces g) -> f_local f = true -> f_internal f = false -> open_face f = true -> f_dn f <> Z.of_nat k) ->
  (forall f up dn, In f (faces g) -> f_local f = true -> f_internal f = true -> f_up f = Z.of_nat k \/ f_dn f = Z.of_nat k ->
     nth_error (upd cs k (c p)) (Z.to_nat (f_up f)) = Some up -> nth_error (upd cs k (c p)) (Z.to_nat (f_dn f)) = Some dn ->
     potential_drop (c_P up) (c_P dn) (face_density (f_dist_up f) (f_dist_dn f) (c_S up) (c_S dn) (c_rho up) (c_rho dn))
       (dot (gravity g) (f_unit f) * (f_dist_up f + f_dist_dn f)) <> 0) ->
  exists B d, SNESJacobian g (upd cs k (c p)) bs junkJ junkb = Ok B
    /\ entry B (Z.of_nat i) (Z.of_nat k) = Some d
    /\ has_derivative (fun x => match SNESFunction g (upd cs k (c x)) bs prev junk n with Ok r => nth i r None | _ => None end) p d.
Proof.
  intros g n nb cs bs prev junk junkJ junkb k c p i G Lc Lb Lp Gc Gb Hk Hi C Gk W NS NB NT.
  destruct (assembled_entry g n nb cs bs k c p G Lc Gc Lb Hk C Gk W NS NB NT junkJ junkb i Hi) as [B [EB EE]].
  exists B, (slope g cs k c p junkJ i). split; [exact EB|]. split; [exact EE|].
  exact (residual_derivative g n nb cs bs k c p G Lc Gc Lb Gb Hk C Gk W NS NB NT prev junk junkJ i Hi Lp).
Qed.
Print Assumptions C32_assembled_jacobian.

(** Missing: inflow, and compressible fluid with a gravity component. *)
Theorem C32_dirichlet_outflow_partial : forall dg w0 Dq area (c : R -> cell) p up w Res J,
  consistent c p -> c_vis (c p) <> 0 ->
  gt (b_Kr up) eps || gt (c_Kr (c p)) eps = true ->
  c_S (c p) <> eps -> set_weight (b_S up) (c_S (c p)) (Some w0) = Some w ->
  b_P up - p - (w * b_rho up + (1 - w) * c_rho (c p)) * dg < 0 ->
  (c_drho (c p) = 0 \/ dg = 0) ->
  exists b, bc_jacobian dg (Some w0) (Some Dq) area up (c p) J = Some b
   /\ has_derivative (fun x => bc_flux dg (Some w0) (Some Dq) area up (c x) Res) p b.
Proof. exact bc_jacobian_raw. Qed.
Print Assumptions C32_dirichlet_outflow_partial.

(** Missing: unblocked faces of a compressible fluid with a gravity component. *)
Theorem C32_seepage_partial : forall dg w0 Dq area Pref (c : R -> cell) p up w Res J,
  consistent c p -> c_vis (c p) <> 0 -> b_vis up <> 0 ->
  gt (b_Kr up) eps || gt (c_Kr (c p)) eps = true ->
  c_S (c p) <> eps -> set_weight (b_S up) (c_S (c p)) (Some w0) = Some w ->
  b_P up - p - (w * b_rho up + (1 - w) * c_rho (c p)) * dg <> 0 ->
  (c_drho (c p) = 0 \/ dg = 0) \/ (0 < b_P up - p - (w * b_rho up + (1 - w) * c_rho (c p)) * dg /\ b_P up <= Pref) ->
  exists b, seepage_jacobian Pref dg (Some w0) (Some Dq) area up (c p) J = Some b
   /\ has_derivative (fun x => seepage_flux Pref dg (Some w0) (Some Dq) area up (c x) Res) p b.
Proof. exact seepage_jacobian_raw. Qed.
Print Assumptions C32_seepage_partial.

(** Inflow through a Dirichlet face: the reported derivative is 0. *)
Theorem C32_dirichlet_inflow_refuted : exists dg w0 Dq area c p up d, consistent c p /\
  (forall J, bc_jacobian dg (Some w0) (Some Dq) area up (c p) J = Some 0) /\
  (forall Res, has_derivative (fun x => bc_flux dg (Some w0) (Some Dq) area up (c x) Res) p d) /\ d <> 0.
Proof.
  exists 0, (1/2), 1, 1, inflow_cell, 0, inflow_bnd, (-1).
  split; [apply inflow_consistent|]. split; [exact inflow_jacobian|]. split; [exact inflow_derivative|lra].
Qed.
Print Assumptions C32_dirichlet_inflow_refuted.

(** With gravity and compressible water the Jacobian entry of a Dirichlet face is -25/8, the derivative -7/2. *)
Theorem C32_dirichlet_gravity_refuted : exists dg w0 Dq area c p up a d, consistent c p /\
  (forall J, bc_jacobian dg (Some w0) (Some Dq) area up (c p) J = Some a) /\
  (forall Res, has_derivative (fun x => bc_flux dg (Some w0) (Some Dq) area up (c x) Res) p d) /\ d <> a.
Proof.
  exists 1, (1/2), 1, 1, outflow_cell, 1, outflow_bnd, (-25/8), (-7/2).
  split; [apply outflow_consistent|]. split; [exact outflow_jacobian|]. split; [exact outflow_derivative|lra].
Qed.
Print Assumptions C32_dirichlet_gravity_refuted.

(** So it is for a seepage face. *)
Theorem C32_seepage_gravity_refuted : exists Pref dg w0 Dq area c p up a d, consistent c p /\
  (forall J, seepage_jacobian Pref dg (Some w0) (Some Dq) area up (c p) J = Some a) /\
  (forall Res, has_derivative (fun x => seepage_flux Pref dg (Some w0) (Some Dq) area up (c x) Res) p d) /\ d <> a.
Proof.
  exists 0, 1, (1/2), 1, 1, outflow_cell, 1, outflow_bnd, (-25/8), (-7/2).
  split; [apply outflow_consistent|]. split; [exact seepage_outflow_jacobian|]. split; [exact seepage_outflow_derivative|lra].
Qed.
Print Assumptions C32_seepage_gravity_refuted.

(** The hypotheses of the assembled theorem hold for two cells at different pressures. *)
Example C32_example : exists B d,
  SNESJacobian ex_grid (upd [water 0 1; water 100 1] 0 (water 300 1)) [] (fun _ => (None, None)) (fun _ => None) = Ok B
  /\ entry B 1 0 = Some d
  /\ has_derivative (fun x => match SNESFunction ex_grid (upd [water 0 1; water 100 1] 0 (water x 1)) [] [0; 0] (fun _ => None) 2 with Ok r => nth 1 r None | _ => None end) 300 d.
Proof.
  apply (C32_assembled_jacobian ex_grid 2 0 [water 0 1; water 100 1] [] [0; 0] (fun _ => None) (fun _ => (None, None)) (fun _ => None) 0 (fun x => water x 1) 300 1);
    try reflexivity; try lia.
  - apply ex_grid_good.
  - intros [|[|i]] c' E N; [lia| |destruct i; discriminate E]. injection E as <-. apply water_good; lra.
  - intros b [].
  - split; [reflexivity|]. unfold water; simpl. rewrite Rmult_0_l. split; [|split; [|split]]; apply const_derivative.
  - apply filter_forall. intro x. apply water_good. lra.
  - apply (ex_wet 300 100).
  - unfold threshold; simpl; lra.
  - intros f [<-|[<-|[]]] _ I O; [discriminate I|discriminate O].
  - intros f up dn [<-|[<-|[]]] _ I _ Eu Ed; [|discriminate I]. injection Eu as <-. injection Ed as <-.
    unfold potential_drop, face_density, threshold. simpl. destruct (Rlt_dec 1 (1 / 100000000)); lra.
Qed.

(** ** C33 *)

(** The face transmissibility is the inverse of the sum of the resistances
    distance / directional permeability of the two sides, hence the
    distance-weighted harmonic mean divided by the distance. *)
Theorem C33_harmonic_mean : forall g f ku kd,
  (0 <= f_up f)%Z -> (0 <= f_dn f)%Z -> 0 < f_dist_up f -> 0 < f_dist_dn f -> nonzero3 (f_unit f) ->
  diagonal_at g (Z.to_nat (f_up f)) ku -> diagonal_at g (Z.to_nat (f_dn f)) kd -> positive3 ku -> positive3 kd ->
  exists v, ComputeFacePermeability g f = Ok (Some v) /\ 0 < v
    /\ v * (f_dist_up f / directional (f_unit f) ku + f_dist_dn f / directional (f_unit f) kd) = 1
    /\ Rmin (directional (f_unit f) ku) (directional (f_unit f) kd) <= v * (f_dist_up f + f_dist_dn f)
       <= Rmax (directional (f_unit f) ku) (directional (f_unit f) kd)
    /\ (directional (f_unit f) ku = directional (f_unit f) kd -> v * (f_dist_up f + f_dist_dn f) = directional (f_unit f) ku).
Proof. exact face_permeability_mean_proof. Qed.
Print Assumptions C33_harmonic_mean.

Theorem C33_symmetric : forall u du dd ku kd, positive3 ku -> positive3 kd -> nonzero3 u -> 0 < du -> 0 < dd ->
  face_value u du dd ku kd = face_value u dd du kd ku.
Proof.
  intros u du dd ku kd Pu Pd U Du Dd. destruct (face_value_mean_proof u du dd ku kd Pu Pd U Du Dd) as [v [-> [_ [-> _]]]]. reflexivity.
Qed.
Print Assumptions C33_symmetric.

Example C33_example : ComputeFacePermeability ex_grid ex_face = Ok (Some (1 / 2)).
Proof.
  destruct (C33_harmonic_mean ex_grid ex_face (1, 1, 1) (1, 1, 1)) as [v [E [_ [H _]]]]; try (simpl; lra); try (simpl; lia); try (repeat split; reflexivity).
  rewrite E. f_equal. f_equal. unfold directional in H. simpl in H. field_simplify in H. lra.
Qed.

(** ** C34 *)

Theorem C34_flow_direction : forall g n nb cs, good_grid g n nb -> (forall c, In c cs -> good_cell c) ->
  forall j f up dn Res, nth_error (faces g) j = Some f -> f_internal f = true ->
  nth_error cs (Z.to_nat (f_up f)) = Some up -> nth_error cs (Z.to_nat (f_dn f)) = Some dn ->
  (threshold < c_Kr up \/ threshold < c_Kr dn) ->
  let d := potential_drop (c_P up) (c_P dn) (face_density (f_dist_up f) (f_dist_dn f) (c_S up) (c_S dn) (c_rho up) (c_rho dn))
             (dot (gravity g) (f_unit f) * (f_dist_up f + f_dist_dn f)) in
  exists v, RichardsResidual g cs j Res = Ok (Some v)
    /\ (d = 0 -> v = 0)
    /\ (0 < d -> 0 <= v /\ (0 < c_Kr up -> 0 < v))
    /\ (d < 0 -> v <= 0 /\ (0 < c_Kr dn -> v < 0)).
Proof. intros g n nb cs G Gc. exact (routine_direction g n nb cs G Gc). Qed.
Print Assumptions C34_flow_direction.

(** A closed reservoir at hydrostatic equilibrium stays there: zero residual. *)
Theorem C34_equilibrium : forall g n nb cs bs, good_grid g n nb -> length cs = n -> (forall c, In c cs -> good_cell c) ->
  forall prev junk, wet g cs -> length prev = n -> length bs = nb ->
  (forall f, In f (faces g) -> f_local f = true -> f_internal f = false -> f_bc f = Neumann) ->
  (forall f up dn, In f (faces g) -> f_local f = true -> f_internal f = true ->
     nth_error cs (Z.to_nat (f_up f)) = Some up -> nth_error cs (Z.to_nat (f_dn f)) = Some dn ->
     potential_drop (c_P up) (c_P dn) (face_density (f_dist_up f) (f_dist_dn f) (c_S up) (c_S dn) (c_rho up) (c_rho dn))
       (dot (gravity g) (f_unit f) * (f_dist_up f + f_dist_dn f)) = 0) ->
  (forall i r c, nth_error (rocks g) i = Some r -> nth_error cs i = Some c ->
     k_src r = 0 /\ nth i prev 0 = c_rho c * k_por r * c_S c * k_vol r / dtime g) ->
  SNESFunction g cs bs prev junk n = Ok (map Some (repeat 0 n)).
Proof. intros g n nb cs bs G Lc Gc. exact (equilibrium_proof g n nb cs bs G Lc Gc). Qed.
Print Assumptions C34_equilibrium.

(** Equal pressures along a horizontal face. *)
Example C34_example : SNESFunction ex_grid [water 7 1; water 7 1] [] [1000 * (1/4) * 1 * 1 / 60; 1000 * (1/4) * 1 * 1 / 60] (fun _ => None) 2 = Ok [Some 0; Some 0].
Proof.
  apply (C34_equilibrium ex_grid 2 0 [water 7 1; water 7 1] []); try reflexivity.
  - apply ex_grid_good.
  - apply ex_cells_good; lra.
  - apply ex_wet.
  - intros f [<-|[<-|[]]] _ I; [discriminate I|reflexivity].
  - intros f up dn [<-|[<-|[]]] _ I Eu Ed; [|discriminate I]. injection Eu as <-. injection Ed as <-.
    unfold potential_drop, face_density. simpl. destruct (Rlt_dec _ _); lra.
  - intros [|[|i]] r c E1 E2; [| |destruct i; discriminate E1]; injection E1 as <-; injection E2 as <-; simpl; split; reflexivity.
Qed.

(** ** C35 *)

(** When every interior face can conduct, what the automatic variables held does
    not matter. *)
Theorem C35_wet_residual : forall g cs bs prev junk junk' n, wet g cs ->
  (forall f, In f (faces g) -> f_local f = true -> f_internal f = true -> (0 <= f_up f)%Z /\ (0 <= f_dn f)%Z) ->
  SNESFunction g cs bs prev junk n = SNESFunction g cs bs prev junk' n.
Proof. exact residual_ignores_junk. Qed.
Print Assumptions C35_wet_residual.

Theorem C35_wet_jacobian : forall g cs bs junk junk' junkb, wet g cs ->
  (forall f, In f (faces g) -> f_local f = true -> f_internal f = true -> (0 <= f_up f)%Z /\ (0 <= f_dn f)%Z) ->
  SNESJacobian g cs bs junk junkb = SNESJacobian g cs bs junk' junkb.
Proof. exact jacobian_ignores_junk. Qed.
Print Assumptions C35_wet_jacobian.

(** On a dry face the residual can be any number. *)
Theorem C35_dry_refuted : exists g cs prev, good_grid g 2 0 /\ (forall c, In c cs -> good_cell c) /\
  forall v, exists junk w, SNESFunction g cs [] prev junk 2 = Ok [Some v; Some w].
Proof.
  exists ex_grid, [water 0 0; water 0 0], [0; 0]. split; [apply ex_grid_good|]. split; [apply ex_cells_good; lra|].
  intro v. eexists _, _. exact (ex_dry v).
Qed.
Print Assumptions C35_dry_refuted.

Example C35_example : forall junk, SNESFunction ex_grid [water 1 1; water 2 1] [] [0; 0] junk 2 = SNESFunction ex_grid [water 1 1; water 2 1] [] [0; 0] (fun _ => None) 2.
Proof.
  intro junk. apply C35_wet_residual; [apply ex_wet|]. intros f [<-|[<-|[]]] _ I; [simpl; lia|discriminate I].
Qed.

(** ** C36 *)

(** The seepage residual and both boundary Jacobians of boundary face [b] read
    only the values of face [b]. *)
Theorem C36_own_values : forall g cs bs bs' j f b Res, nth_error (faces g) j = Some f -> f_up f = (- Z.of_nat b - 1)%Z ->
  nth_error bs b = nth_error bs' b ->
  RichardsSeepageBCResidual g cs bs j Res = RichardsSeepageBCResidual g cs bs' j Res
  /\ RichardsSeepageBCJacobian g cs bs j Res = RichardsSeepageBCJacobian g cs bs' j Res
  /\ RichardsBCJacobian g cs bs j Res = RichardsBCJacobian g cs bs' j Res.
Proof. exact boundary_same. Qed.
Print Assumptions C36_own_values.

(** The Dirichlet residual reads those of face [b + 2]. *)
Theorem C36_dirichlet_shifted : forall g cs bs bs' j f b Res, nth_error (faces g) j = Some f -> f_up f = (- Z.of_nat b - 1)%Z ->
  nth_error bs (b + 2) = nth_error bs' (b + 2) -> RichardsBCResidual g cs bs j Res = RichardsBCResidual g cs bs' j Res.
Proof. exact dirichlet_shifted. Qed.
Print Assumptions C36_dirichlet_shifted.

(** Two states that agree on face 0 but not on face 2 give different Dirichlet residuals of face 0. *)
Theorem C36_dirichlet_refuted : exists g cs bs bs' j f b, good_grid g 1 3 /\ nth_error (faces g) j = Some f
  /\ f_up f = (- Z.of_nat b - 1)%Z /\ nth_error bs b = nth_error bs' b
  /\ RichardsBCResidual g cs bs j (Some 0) <> RichardsBCResidual g cs bs' j (Some 0).
Proof.
  exists ex_bgrid, [mkCell 0 1 0 1 0 1 0 1 0], [mkBnd 5 1 1 1 1; mkBnd 5 1 1 1 1; mkBnd 1 1 1 1 1], [mkBnd 5 1 1 1 1; mkBnd 5 1 1 1 1; mkBnd 3 1 1 1 1], 0%nat, ex_bface, 0%nat.
  split; [exact ex_bgrid_good|]. split; [reflexivity|]. split; [reflexivity|]. split; [reflexivity|].
  rewrite !ex_dirichlet. intro H. injection H as H. lra.
Qed.
Print Assumptions C36_dirichlet_refuted.

(** ** C37 *)

(** A seepage face at or below the reference pressure lets no water in. *)
Theorem C37_fvtpf : forall g n nb cs bs, good_grid g n nb -> (forall c, In c cs -> good_cell c) ->
  forall j f b dn, nth_error (faces g) j = Some f -> f_internal f = false -> f_bc f = Seepage ->
  nth_error bs (Z.to_nat (- f_up f - 1)) = Some b -> good_bnd b -> nth_error cs (Z.to_nat (f_dn f)) = Some dn -> b_P b <= Pref g ->
  exists v, RichardsSeepageBCResidual g cs bs j (Some 0) = Ok (Some v) /\ v <= 0.
Proof. intros g n nb cs bs G Gc. exact (routine_seepage g n nb cs bs G Gc). Qed.
Print Assumptions C37_fvtpf.

(** Water does leave when the potential drop points outwards. *)
Theorem C37_fvtpf_outflow : forall g f Dq up dn Res,
  0 < f_dist_up f -> 0 < f_dist_dn f -> 0 < f_area f -> 0 < Dq ->
  0 < b_vis up -> 0 < c_vis dn -> 0 < b_rho up -> 0 < c_rho dn -> 0 <= b_Kr up -> 0 <= c_Kr dn ->
  (eps < b_Kr up \/ eps < c_Kr dn) -> b_P up <= Pref g ->
  exists v, seepage_flux (Pref g) (fst (CalculateDistances g f)) (snd (CalculateDistances g f)) (Some Dq) (f_area f) up dn Res = Some v
    /\ v <= 0
    /\ (potential_drop (b_P up) (c_P dn) (face_density (f_dist_up f) (f_dist_dn f) (b_S up) (c_S dn) (b_rho up) (c_rho dn))
          (dot (gravity g) (f_unit f) * (f_dist_up f + f_dist_dn f)) < 0 -> 0 < c_Kr dn -> v < 0).
Proof. exact seepage_no_inflow_proof. Qed.
Print Assumptions C37_fvtpf_outflow.
