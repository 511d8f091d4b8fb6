(** C98: the test problems with known solution in demo/steady and demo/transient. *)
From Coq Require Import Reals List Arith Lia Lra.
From Coquelicot Require Import Coquelicot.
From Verif Require Import Prelude Arrays Demo SpecDemo DemoProofs DemoFields DemoFields2 DemoRest DemoMesh.
Import ListNotations.
Local Open Scope R_scope.

(** Quadratic pressure in the plane: for any number of points the velocity is the Darcy
    velocity of the pressure and the forcing its divergence. *)
Theorem C98_quadratic2D : solution 2 (table [5; 1; 1; 2]) (fun q => 314/100 + q 0%nat*(1 - q 0%nat) + q 1%nat*(1 - q 1%nat))
  PermTest2D PressureQuadratic2D VelocityQuadratic2D ForcingQuadratic2D.
Proof. exact quadratic2D. Qed.
(** Wheeler and Yotov 2006, problem 1. *)
Theorem C98_wheeler2006_1 : solution 2 (table [5; 1; 1; 2])
  (fun q => (1 - q 0%nat)^4 + (1 - q 1%nat)^3 * (1 - q 0%nat) + sin (1 - q 1%nat) * cos (1 - q 0%nat))
  PermWheeler2006_1 PressureWheeler2006_1 VelocityWheeler2006_1 ForcingWheeler2006_1.
Proof. exact (wheeler2006_1_any _ PermWheeler2006_1_fills). Qed.
(** Wheeler and Yotov 2006, problem 2, with a permeability that depends on the place. *)
Theorem C98_wheeler2006_2 : solution 2
  (fun q k => nth k [4 + (q 0%nat + 2)^2 + (q 1%nat)^2; 1 + sin (q 0%nat * q 1%nat); 1 + sin (q 0%nat * q 1%nat); 2] 0)
  (fun q => (sin (3*PI*q 0%nat) * sin (3*PI*q 1%nat))^2)
  PermWheeler2006_2 PressureWheeler2006_2 VelocityWheeler2006_2 ForcingWheeler2006_2.
Proof. exact wheeler2006_2. Qed.
(** Wheeler, Xue and Yotov 2012, problem 1: right if the velocity is asked for one point. *)
Theorem C98_wheeler2012_1_partial : point_solution 2 (table [2; 125/100; 125/100; 3]) (fun q => (sin (3*PI*q 0%nat) * sin (3*PI*q 1%nat))^2)
  PermWheeler2012_1 PressureWheeler2012_1 VelocityWheeler2012_1 ForcingWheeler2012_1.
Proof. exact wheeler2012_1. Qed.
(** Asked for several points, the velocity of that problem is only ever written to the
    first two entries; the entries of all other points keep what they were
    (steady.c:240-241). *)
Theorem C98_wheeler2012_1_refuted : forall n x v, length x = (2 * n)%nat -> (2 <= length v)%nat ->
  exists v', VelocityWheeler2012_1 n x v = Ok v' /\ length v' = length v /\ forall j, (2 <= j)%nat -> nth_error v' j = nth_error v j.
Proof. exact velocity2012_1_first. Qed.
(** Wheeler, Xue and Yotov 2012, problem 2, for every value of -alpha. *)
Theorem C98_wheeler2012_2 : forall alpha, solution 3 (table [alpha; 1; 1; 1; 2; 1; 1; 1; 2])
  (fun q => (q 0%nat * q 1%nat * q 2%nat * (q 0%nat - 1) * (q 1%nat - 1) * (q 2%nat - 1))^2)
  (PermWheeler2012_2 alpha) PressureWheeler2012_2 (VelocityWheeler2012_2 alpha) (ForcingWheeler2012_2 alpha).
Proof. exact wheeler2012_2. Qed.
(** Problem 3 in space. *)
Theorem C98_problem3 : forall alpha, solution 3 (table [alpha; 1; 1; 1; 2; 1; 1; 1; 2]) (fun q => cos (q 0%nat) * cos (q 1%nat) * cos (q 2%nat))
  (PermWheeler2012_2 alpha) Pressure3 (Velocity3 alpha) (Forcing3 alpha).
Proof. exact problem3. Qed.

(** Constant pressure in space, for every permeability. *)
Theorem C98_constant : forall perm K, fills 3 9 perm K -> solution 3 K (fun _ => 314/100) perm PressureConstant VelocityConstant ForcingConstant.
Proof. exact constant3D. Qed.
(** Constant pressure in the plane: right for one point and an array of three entries,
    which is how the library asks. *)
Theorem C98_constant2D_partial : forall perm K, fills 2 4 perm K -> point_solution 2 K (fun _ => 314/100) perm PressureConstant VelocityConstant ForcingConstant.
Proof. exact constant2D. Qed.
(** With an array of two entries per point the velocity function always writes outside of
    it, as it takes three entries per point in the plane too (steady.c:33-35). *)
Theorem C98_constant2D_refuted : forall n x v, (0 < n)%nat -> length v = (2 * n)%nat -> VelocityConstant n x v = UB.
Proof. exact constant2D_outside. Qed.

(** Quadratic pressure in space: pressure, velocity and permeability belong together, and
    the forcing that goes with them is the constant 2 (4.321 + 1.234 + 1.1). *)
Theorem C98_quadratic3D_partial : forall forcing, fills 3 1 forcing (fun _ _ => 2 * (4321/1000 + 1234/1000 + 11/10)) ->
  solution 3 (table [4321/1000; 1; 1/2; 1; 1234/1000; 1; 1/2; 1; 11/10])
    (fun q => 314/100 + q 0%nat*(1 - q 0%nat) + q 1%nat*(1 - q 1%nat) + q 2%nat*(1 - q 2%nat)) PermTest3D PressureQuadratic3D VelocityQuadratic3D forcing.
Proof. exact quadratic3D_any. Qed.
(** The forcing of the program is another one: it takes entry 3 of the tensor for entry 4
    (steady.c:98). *)
Theorem C98_quadratic3D_refuted : ~ solution 3 (table [4321/1000; 1; 1/2; 1; 1234/1000; 1; 1/2; 1; 11/10])
    (fun q => 314/100 + q 0%nat*(1 - q 0%nat) + q 1%nat*(1 - q 1%nat) + q 2%nat*(1 - q 2%nat)) PermTest3D PressureQuadratic3D VelocityQuadratic3D ForcingQuadratic3D.
Proof. exact quadratic3D_wrong. Qed.
(** The forcing of the transient demonstration sets the first of its points only
    (transient.c:25). *)
Theorem C98_transient_refuted : forall n x f, (1 <= length f)%nat -> exists f', TransientForcing n x f = Ok f' /\ length f' = length f /\
  (forall j, (1 <= j)%nat -> nth_error f' j = nth_error f j) /\ ((0 < n)%nat -> nth_error f' 0 = Some (Some 0)).
Proof. exact transient_first. Qed.

(** The permeabilities are symmetric and positive definite everywhere; the one with -alpha
    exactly for alpha > 2/3. *)
Theorem C98_permeability : forall q alpha,
  symmetric_positive 2 (table [5; 1; 1; 2] q) /\ symmetric_positive 2 (table [2; 125/100; 125/100; 3] q) /\
  symmetric_positive 2 (fun k => nth k [4 + (q 0%nat + 2)^2 + (q 1%nat)^2; 1 + sin (q 0%nat * q 1%nat); 1 + sin (q 0%nat * q 1%nat); 2] 0) /\
  symmetric_positive 3 (table [4321/1000; 1; 1/2; 1; 1234/1000; 1; 1/2; 1; 11/10] q) /\
  (symmetric_positive 3 (table [alpha; 1; 1; 1; 2; 1; 1; 1; 2] q) <-> 2/3 < alpha).
Proof. intros q a. exact (conj (spd_test2 q) (conj (spd_2012_1 q) (conj (spd_2006_2 q) (conj (spd_test3 q) (spd_alpha a q))))). Qed.

(** Whatever paper, dimension and problem number main accepts and sets functions for, the
    functions it sets belong together. *)
Theorem C98_selected : forall alpha p d problem s, d = 2%nat \/ d = 3%nat -> select alpha p d problem = Ok (Some s) ->
  exists K pr, point_solution d K pr (s_perm s) (s_pressure s) (s_velocity s) (s_forcing s) /\ (2/3 < alpha -> forall q, symmetric_positive d (K q)).
Proof. exact selected. Qed.
(** But problem 4 in space, problem 0 and problems from 5 on are not refused without
    -paper: the program goes on with none of its functions set. *)
Theorem C98_unknown_refuted : forall alpha, select alpha NoPaper 3 4 = Ok None /\ (forall d, select alpha NoPaper d 0 = Ok None) /\
  forall d problem, (5 <= problem)%nat -> select alpha NoPaper d problem = Ok None.
Proof.
  intros a. split; [reflexivity|]. split; [reflexivity|]. intros d n H. do 5 (destruct n as [|n]; [lia|]). reflexivity.
Qed.

(** The smooth deformations map the unit square and cube into themselves, keep every side,
    and never map two points to one, so that no mesh is folded onto itself. *)
Theorem C98_smooth2 : (forall x y, unit_side x (fst (smooth2 x y)) /\ unit_side y (snd (smooth2 x y))) /\
  forall x y x' y', smooth2 x y = smooth2 x' y' -> x = x' /\ y = y'.
Proof. split; [exact smooth2_box|exact smooth2_injective]. Qed.
(** The same in space. *)
Theorem C98_smooth3 : (forall x y z, unit_side x (fst (fst (smooth3 x y z))) /\ unit_side y (snd (fst (smooth3 x y z))) /\ unit_side z (snd (smooth3 x y z))) /\
  forall x y z x' y' z', smooth3 x y z = smooth3 x' y' z' -> x = x' /\ y = y' /\ z = z'.
Proof. split; [exact smooth3_box|exact smooth3_injective]. Qed.
(** The mesh of the 2006 paper: heights shrink by at most a half, columns stay columns, no
    two points meet and the surface has no jump. *)
Theorem C98_lower2 : (forall x y, 0 <= x <= 1 -> 0 <= y <= 1 -> fst (lower2 x y) = x /\ y / 2 <= snd (lower2 x y) <= y) /\
  (forall x y x' y', 0 <= x <= 1 -> lower2 x y = lower2 x' y' -> x = x' /\ y = y') /\
  (forall x x' y, 0 <= x <= 1 -> 0 <= x' <= 1 -> 0 <= y <= 1 -> Rabs (snd (lower2 x y) - snd (lower2 x' y)) <= 3 * Rabs (x - x')).
Proof. exact (conj lower2_box (conj lower2_injective lower2_close)). Qed.

(** * Examples *)
Example C98_two_points_example : VelocityQuadratic2D 2%nat [0; 0; 1; 2] [None; None; None; None] =
  Ok [Some (- 5*(1-2*0) - 1*(1-2*0)); Some (- 1*(1-2*0) - 2*(1-2*0)); Some (- 5*(1-2*1) - 1*(1-2*2)); Some (- 1*(1-2*1) - 2*(1-2*2))] /\
  - 5*(1-2*1) - 1*(1-2*2) = 8.
Proof. split; [reflexivity|lra]. Qed.
Example C98_lost_example : exists a b, VelocityWheeler2012_1 2%nat [0; 0; 1; 2] [None; None; None; None] = Ok [Some a; Some b; None; None].
Proof. do 2 eexists. reflexivity. Qed.
Example C98_outside_example : VelocityConstant 2%nat [0; 0; 1; 2] [None; None; None; None] = UB.
Proof. reflexivity. Qed.
Example C98_forcing_example : ForcingQuadratic3D 1%nat [0; 0; 0] [None] = Ok [Some (2 * (4321/1000 + 1 + 11/10))].
Proof. reflexivity. Qed.

Print Assumptions C98_quadratic2D.
Print Assumptions C98_wheeler2006_1.
Print Assumptions C98_wheeler2006_2.
Print Assumptions C98_wheeler2012_1_partial.
Print Assumptions C98_wheeler2012_1_refuted.
Print Assumptions C98_wheeler2012_2.
Print Assumptions C98_problem3.
Print Assumptions C98_constant.
Print Assumptions C98_constant2D_partial.
Print Assumptions C98_constant2D_refuted.
Print Assumptions C98_quadratic3D_partial.
Print Assumptions C98_quadratic3D_refuted.
Print Assumptions C98_transient_refuted.
Print Assumptions C98_permeability.
Print Assumptions C98_selected.
Print Assumptions C98_unknown_refuted.
Print Assumptions C98_smooth2.
Print Assumptions C98_smooth3.
Print Assumptions C98_lower2.
