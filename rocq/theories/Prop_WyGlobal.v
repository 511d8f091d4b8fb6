(** C104: the assembled Wheeler-Yotov system. *)
From Coq Require Import Reals List ZArith Arith Bool.
From Verif Require Import Prelude Arrays SpecFvtpf SpecHdiv Mpfao Wy SpecWy WyGlobal SpecWyGlobal WyGlobalProofs WyGlobalExamples.
Import ListNotations.
Local Open Scope R_scope.

(** On any mesh of any dimension, on any process with any ghost cells, for all pressures: both the system and the velocities can be computed, and in every owned cell the row of the matrix times the pressures, less the right hand side, is what the residual function finds: the outflow of the stored velocities through the faces of the cell, less the source.  Missing: vertices at which an entry of the stencil is less than 2e-12 of another one. *)
Theorem C104_balance_partial : forall m g nv fmap star vs st gid p P C D force Z vel0,
  whole_mesh m g nv fmap star vs st -> numbered m gid -> local_copy m gid p P -> stencils m star vs C D -> solved m P star vs Z ->
  length vel0 = (nv * (fEnd m - fStart m))%nat -> significant m star vs C ->
  exists K F vel, compute_system m gid star vs C D force = Ok (K, F) /\ recover m nv fmap P star vs Z vel0 = Ok vel
    /\ forall cone c el, whole_cell m g nv fmap star vs st cone c el -> owned gid c ->
       exists out, divergence (dim m) g (fStart m) nv vel c (cone c) = Ok out
         /\ row_times K (gid c) p - value F (gid c) = out - force c.
Proof. exact balance_partial. Qed.
Print Assumptions C104_balance_partial.

(** Without that condition the two differ by at most 10^4 / 2^52 times, summed over the corners of the cell, the greatest entry of the stencil times the sum of the absolute pressures around the corner. *)
Theorem C104_balance_bound : forall m g nv fmap star vs st gid p P C D force Z vel0,
  whole_mesh m g nv fmap star vs st -> numbered m gid -> local_copy m gid p P -> stencils m star vs C D -> solved m P star vs Z ->
  length vel0 = (nv * (fEnd m - fStart m))%nat ->
  exists K F vel, compute_system m gid star vs C D force = Ok (K, F) /\ recover m nv fmap P star vs Z vel0 = Ok vel
    /\ forall cone c el big, whole_cell m g nv fmap star vs st cone c el -> owned gid c ->
       (forall v i j, In v (vmap el) -> (i < length (cells_of m (star v)))%nat -> (j < length (cells_of m (star v)))%nat -> Rabs (C v i j) <= big v) ->
       exists out, divergence (dim m) g (fStart m) nv vel c (cone c) = Ok out
         /\ Rabs (row_times K (gid c) p - value F (gid c) - (out - force c))
            <= 10000 * / 2 ^ 52 * rsum (fun v => big v * rsum (fun b => Rabs (nth b P 0)) (cells_of m (star v))) (vmap el).
Proof. exact balance_bound. Qed.
Print Assumptions C104_balance_bound.

(** The entries of a nearly impermeable cell beside a permeable one are left out of the matrix but its boundary pressure stays in the right hand side: with pressure 1 in all cells and on the boundary there is no flow, and yet the equation of that cell is not satisfied. *)
Theorem C104_balance_refuted : exists m g nv fmap star vs st gid p P C D force Z vel0 K F vel cone c el,
  whole_mesh m g nv fmap star vs st /\ numbered m gid /\ local_copy m gid p P /\ stencils m star vs C D /\ solved m P star vs Z
  /\ length vel0 = (nv * (fEnd m - fStart m))%nat
  /\ compute_system m gid star vs C D force = Ok (K, F) /\ recover m nv fmap P star vs Z vel0 = Ok vel
  /\ whole_cell m g nv fmap star vs st cone c el /\ owned gid c
  /\ (forall i, p i = 1) /\ (forall f, bc m f = None \/ bc m f = Some 1) /\ (forall c, force c = 0)
  /\ divergence (dim m) g (fStart m) nv vel c (cone c) = Ok 0
  /\ row_times K (gid c) p - value F (gid c) <> 0.
Proof. exact balance_refuted. Qed.
Print Assumptions C104_balance_refuted.

(** The matrix is symmetric, also where entries are left out. *)
Theorem C104_symmetric : forall m g nv fmap star vs st gid C D force,
  whole_mesh m g nv fmap star vs st -> numbered m gid -> stencils m star vs C D ->
  exists K F, compute_system m gid star vs C D force = Ok (K, F) /\
    forall c c', (c < length (elements m))%nat -> (c' < length (elements m))%nat -> owned gid c -> owned gid c' ->
      entry K (gid c) (gid c') = entry K (gid c') (gid c).
Proof. exact symmetric_matrix. Qed.
Print Assumptions C104_symmetric.

(** Two squares of side 2 and permeability 1 with pressures 3 and 1 and pressure 1 on the boundary: 12 leave the left one through the boundary, 2 to the right one. *)
Example C104_example : exists K F vel, compute_system (squares 1) Z.of_nat around corners_of (Cs 1) (Ds 1) (fun _ => 0) = Ok (K, F)
  /\ recover (squares 1) 2 on_faces [3; 1] around corners_of (Zs 1 3 1) (repeat 0 14) = Ok vel
  /\ row_times K 0 (fun i => if (i =? 0)%Z then 3 else 1) - value F 0 = 14.
Proof. exact squares_flow. Qed.
