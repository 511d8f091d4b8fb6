(** C80, C81, C82, C83: the system of the BDM method and its solution. *)
From Coq Require Import Reals List ZArith Bool Arith Lia Lra.
From Coquelicot Require Import Coquelicot.
From Verif Require Import Prelude Arrays SpecFvtpf Hdiv SpecHdiv FeMap SpecFeMap FeMapExample.
From Verif Require Import Bdm SpecBdm SpecBdmMesh BdmProofs BdmLocalProofs BdmInverseProofs BdmGlobalProofs BdmMeshProofs BdmSolveProofs BdmQuadratureProofs BdmRunProofs BdmExample.
Import ListNotations.
Local Open Scope R_scope.

Definition zeroA : Z -> Z -> R := fun _ _ => 0.
Definition zeroF : Z -> R := fun _ => 0.

(** ** C80 *)

(** The local system of a cell is the weak form of Darcy's law and of the balance of
    mass there, for any mixed boundary and any tensor K^-1; the code uses its transpose,
    which is the same for the symmetric ones. *)
Theorem C80_local : forall b c K Kt place, sized b -> (c < p_cells (b_mesh b))%nat -> cell_regular b c ->
  let dim := p_dim (b_mesh b) in length K = (dim * dim)%nat ->
  (forall i j, (i < dim)%nat -> (j < dim)%nat -> nth (i * dim + j) Kt 0 = nth (j * dim + i) K 0) ->
  (forall f, In f (b_cone b c) -> placed b c f (fst (place f)) (snd (place f))) ->
  exists s, local_system b K c = Ok s /\ weak_form b c Kt place s.
Proof.
  intros b c K Kt place SZ Hc RG dim LK T PL.
  destruct (local_ok b SZ c Hc K LK (shapes b c) (basis_exists b c SZ RG) place PL) as [M [F [E _]]]. exists (M, F). split; [exact E|].
  intros phi HB V Q. exact (local_weak b SZ c Hc K LK phi HB place PL Kt (M, F) T E V Q).
Qed.
(** [Inverse] inverts every invertible permeability. *)
Theorem C80_inverse : forall dim lu K L, (dim = 2 \/ dim = 3)%nat -> length K = (dim * dim)%nat -> length L = (dim * dim)%nat -> inverse_of dim L K ->
  Inverse dim lu K = L /\ inverse_of dim K (Inverse dim lu K).
Proof. exact inverse_proof. Qed.
(** A vector solves the assembled system exactly if it is a solution of the weak form:
    all cells together, for all test functions. *)
Theorem C80_system : forall b K Kinv place size, well_posed b K Kinv place -> in_range b size ->
  exists s, ComputeSystem b (mkState K zeroA zeroF) = Ok s /\
  forall phi, (forall c, (c < p_cells (b_mesh b))%nat -> basis_functions b c (phi c)) -> forall U, solves s size U <-> weak_solution b phi Kinv place U.
Proof. intros b K Kinv place size WP RG. exact (system_proof b K Kinv place WP size RG). Qed.
(** The setup of C79 yields maps for which this holds. *)
Theorem C80_setup : forall b corner wall size, set_up b corner wall -> bounded b size ->
  sized b /\ in_range b size /\
  forall c f, (c < p_cells (b_mesh b))%nat -> In f (b_cone b c) -> placed b c f (fst (place_of b wall c f)) (snd (place_of b wall c f)).
Proof.
  intros b corner wall size SU BD. destruct (setup_proof b corner wall SU) as [H1 H2]. split; [exact H1|]. split; [exact (range_proof b corner wall SU size BD)|exact H2].
Qed.
(** The quadrature in each direction integrates polynomials up to degree 5. *)
Theorem C80_quadrature : forall a0 a1 a2 a3 a4 a5, let p x := a0 + a1 * x + a2 * x^2 + a3 * x^3 + a4 * x^4 + a5 * x^5 in
  is_RInt p (-1) 1 (sum_over gauss (fun q => p (fst q) * snd q)).
Proof. exact gauss_exact. Qed.
(** Without a boundary pressure the boundary has pressure zero: flow passes it. *)
Theorem C80_open_boundary : forall b phi Kinv place U, b_pressure b = None ->
  (weak_solution b phi Kinv place U <-> weak_solution (with_pressure b (fun _ => 0)) phi Kinv place U).
Proof. exact open_proof. Qed.
(** The assembly leaves the inverses in the place of the permeabilities.  Assembled
    again, the system is the weak form with K where K^-1 belongs. *)
Theorem C80_again : forall b K Kinv place size, well_posed b K Kinv place -> in_range b size ->
  forall s, ComputeSystem b (mkState K zeroA zeroF) = Ok s ->
  (forall c, (c < p_cells (b_mesh b))%nat -> nth c (s_K s) [] = Kinv c) /\
  exists s', ComputeSystem b (mkState (s_K s) zeroA zeroF) = Ok s' /\
  forall phi, (forall c, (c < p_cells (b_mesh b))%nat -> basis_functions b c (phi c)) -> forall U, solves s' size U <-> weak_solution b phi (fun c => nth c K []) place U.
Proof.
  intros b K Kinv place size WP RG s E. split; [exact (proj2 (tensors_proof b K Kinv place WP s E))|exact (again_proof b K Kinv place WP size RG s E)].
Qed.
(** "Two assemblies of one problem give the same system": false.  On two squares with
    permeability 2 and pressure x on the boundary the first system has the flux -1
    through half the left edge, the second one -1/4. *)
Theorem C80_repeated_refuted : let b := sq_problem false (coordinate 0) in
  exists s s' U U', ComputeSystem b (mkState (repeat [2; 0; 0; 2] 2) zeroA zeroF) = Ok s /\
    ComputeSystem b (mkState (s_K s) zeroA zeroF) = Ok s' /\ solves s 16 U /\ solves s' 16 U' /\ at_cell b U 0 0 = -1 /\ at_cell b U' 0 0 = -1/4.
Proof. exact twice_proof. Qed.
(** "A permeability that has no inverse is reported": false, the result of [Inverse] is
    dropped.  The assembly succeeds for any tensors, also for the zeros that stand there
    if no permeability was given. *)
Theorem C80_singular_refuted :
  (forall b K place, sized b -> (forall c, (c < p_cells (b_mesh b))%nat -> cell_regular b c) -> length K = p_cells (b_mesh b) ->
    (forall c f, (c < p_cells (b_mesh b))%nat -> In f (b_cone b c) -> placed b c f (fst (place c f)) (snd (place c f))) ->
    (forall c, (c < p_cells (b_mesh b))%nat -> length (nth c K []) = (p_dim (b_mesh b) * p_dim (b_mesh b))%nat) ->
    (forall M, length M = (p_dim (b_mesh b) * p_dim (b_mesh b))%nat -> length (b_lu b M) = (p_dim (b_mesh b) * p_dim (b_mesh b))%nat) ->
    exists s, ComputeSystem b (mkState K zeroA zeroF) = Ok s)
  /\ exists s, ComputeSystem (sq_problem false (coordinate 0)) (mkState (repeat [0; 0; 0; 0] 2) zeroA zeroF) = Ok s.
Proof. split; [exact runs_proof|exact zero_proof]. Qed.

(** ** C81 *)

(** In every solution the flow out of each cell is the source in it. *)
Theorem C81_cell : forall b corner wall K Kinv place size, set_up b corner wall -> well_posed b K Kinv place -> in_range b size ->
  exists s, ComputeSystem b (mkState K zeroA zeroF) = Ok s /\
  forall U, solves s size U -> forall c, (c < p_cells (b_mesh b))%nat -> outflow b c (at_cell b U c) = source b c.
Proof.
  intros b corner wall K Kinv place size SU WP RG. destruct (system_proof b K Kinv place WP size RG) as [s [E H]]. exists s. split; [exact E|].
  intros U SO c Hc. refine (mass_proof b corner wall SU (shapes b) Kinv place U _ c Hc). apply (H (shapes b)); [|exact SO].
  intros k Hk. apply basis_exists; [exact (wp_sized _ _ _ _ WP)|exact (wp_regular _ _ _ _ WP k Hk)].
Qed.
(** It is the sum of the flows through its faces... *)
Theorem C81_walls : forall b c U, outflow b c U = total (fun d => wall_flux b c d false U + wall_flux b c d true U) (p_dim (b_mesh b)).
Proof. exact walls_proof. Qed.
(** ... and what leaves one cell through a common face enters the other. *)
Theorem C81_between : forall b corner wall, set_up b corner wall -> forall U c d s c' d' s', two_sided b wall -> shared b wall c d s c' d' s' ->
  wall_flux b c d s (at_cell b U c) = - wall_flux b c' d' s' (at_cell b U c').
Proof. exact between_proof. Qed.
(** The unknowns of a face are the parts of the flow through it that belong to its
    vertices: at every point of the face, the normal velocity (times area) is their
    multilinear interpolation. *)
Theorem C81_normal_flux : forall b corner wall, set_up b corner wall ->
  forall c phi U d (s : bool) xi n, let dim := p_dim (b_mesh b) in (c < p_cells (b_mesh b))%nat -> cell_regular b c -> basis_functions b c phi -> (d < dim)%nat -> inside dim xi ->
  nth d xi 0 = (if s then 1 else -1) -> vector_area dim (jacobian b c xi) (det b c xi) d (if s then 1 else -1) n ->
  SpecBdm.dot dim (field b c phi U xi) n
  = sum_over (on_wall b d s) (fun v => sign_of b c (v * dim + d) * U (v * dim + d)%nat * corner_function dim v d (fun e => nth e xi 0)).
Proof. exact normal_flux_proof. Qed.

(** ** C82 *)

(** The system has exactly one solution: K symmetric and positive definite, cells with
    positive Jacobian determinants, every cell connected to the boundary. *)
Theorem C82_solvable : forall b corner wall K Kinv place size, set_up b corner wall -> well_posed b K Kinv place ->
  (forall c, (c < p_cells (b_mesh b))%nat -> positive (p_dim (b_mesh b)) (nth c K [])) -> (forall c, (c < p_cells (b_mesh b))%nat -> proper b c) ->
  (forall c, (c < p_cells (b_mesh b))%nat -> reaches b wall c) -> in_range b size -> covered b size ->
  exists s U, ComputeSystem b (mkState K zeroA zeroF) = Ok s /\ solves s size U /\ forall U', solves s size U' -> forall i, (i < size)%nat -> U' i = U i.
Proof. intros b corner wall K Kinv place size SU WP POS PR RE RG CV. exact (solvable_proof b corner wall SU K Kinv place WP POS PR RE size RG CV). Qed.

(** ** C83 *)

(** On parallelepipeds, with one permeability and full quadrature, a linear pressure is
    reproduced: the solution has its values in the cells, and the exact flow through
    every face. *)
Theorem C83_linear : forall b corner wall area K0 p0 g K Kinv DF J size, set_up b corner wall -> well_posed b K Kinv (place_of b wall) ->
  (forall c, (c < p_cells (b_mesh b))%nat -> nth c K [] = K0) -> parallelepipeds b corner wall DF J area -> two_sided b wall -> boundary_marked b wall ->
  b_lumped b = false -> b_forcing b = None -> (exists gb, b_pressure b = Some gb /\ forall x, gb x = linear_function b p0 g (fun k => nth k x 0)) ->
  in_range b size -> positive (p_dim (b_mesh b)) K0 -> (forall c, (c < p_cells (b_mesh b))%nat -> reaches b wall c) -> covered b size ->
  exists s U, ComputeSystem b (mkState K zeroA zeroF) = Ok s /\ solves s size U /\ is_exact b wall area K0 p0 g U /\
  forall U', solves s size U' -> is_exact b wall area K0 p0 g U'.
Proof.
  intros b corner wall area K0 p0 g K Kinv DF J size SU WP SAME GE TS BM FULL NF PB RG POS RE CV.
  exact (linear_proof b corner wall SU area K0 p0 g K Kinv DF J size WP SAME GE TS BM FULL NF PB RG POS RE CV).
Qed.
(** "... also with lumped quadrature": false, even on two unit squares with permeability
    1: the boundary term is integrated with the full quadrature, the other terms with the
    corners only, so the pressure y along the left edge is taken at different places. *)
Theorem C83_lumped_refuted : let b := sq_problem true (coordinate 1) in
  exists s, ComputeSystem b (mkState (repeat [1; 0; 0; 1] 2) zeroA zeroF) = Ok s /\
    forall U, is_exact b sq_wall (fun _ => 1/2) [1; 0; 0; 1] 0 (slope 1) U -> ~ solves s 16 U.
Proof. exact lumped_proof. Qed.

(** Two squares satisfy all that is assumed. *)
Example C80_example : forall lumped g, let b := sq_problem lumped g in set_up b sq_corner sq_wall /\ bounded b 16 /\
  well_posed b (repeat [2; 0; 0; 2] 2) (fun _ => [/2; 0; 0; /2]) (place_of b sq_wall) /\ inverse_of 2 [/2; 0; 0; /2] [2; 0; 0; 2].
Proof.
  intros lumped g b. split; [apply sq_set_up|]. split; [apply sq_bounded|]. split; [apply sq_posed; lra|].
  intros i j Hi Hj. cases i 2%nat; cases j 2%nat; simpl; lra.
Qed.
Example C81_example : forall lumped g, let b := sq_problem lumped g in two_sided b sq_wall /\ shared b sq_wall 0 0 true 1 0 false /\
  vector_area 2 (jacobian b 0 [1; 0]) (det b 0 [1; 0]) 0 1 (fun k => if (k =? 0)%nat then 1/2 else 0) /\ on_wall b 0 true = [1; 3]%nat.
Proof.
  intros lumped g b. split; [apply sq_two_sided|]. split; [apply sq_shared|]. split; [|reflexivity].
  intros i Hi. cases i 2%nat; cbv -[Rplus Rminus Ropp Rmult Rdiv Rinv IZR]; lra.
Qed.
Example C82_example : forall lumped g, let b := sq_problem lumped g in (forall c, (c < 2)%nat -> proper b c) /\ (forall c, (c < 2)%nat -> reaches b sq_wall c) /\
  positive 2 [2; 0; 0; 2] /\ covered b 16.
Proof. intros lumped g b. split; [apply sq_proper|]. split; [apply sq_reaches|]. split; [apply sq_positive; lra|apply sq_covered]. Qed.
Example C83_example : forall lumped g, let b := sq_problem lumped g in parallelepipeds b sq_corner sq_wall (fun _ => [1/2; 0; 0; 1/2]) (fun _ => 1/4) (fun _ => 1/2) /\ boundary_marked b sq_wall.
Proof. intros lumped g b. split; [apply sq_parallel|apply sq_marked]. Qed.

Print Assumptions C80_local.
Print Assumptions C80_inverse.
Print Assumptions C80_system.
Print Assumptions C80_setup.
Print Assumptions C80_quadrature.
Print Assumptions C80_open_boundary.
Print Assumptions C80_again.
Print Assumptions C80_repeated_refuted.
Print Assumptions C80_singular_refuted.
Print Assumptions C81_cell.
Print Assumptions C81_walls.
Print Assumptions C81_between.
Print Assumptions C81_normal_flux.
Print Assumptions C82_solvable.
Print Assumptions C83_linear.
Print Assumptions C83_lumped_refuted.
