(** A step in the ground: cell 0 lies on cell 1, cell 2 is beside cell 1 (see
    [TraversalExample.ex]).  Vertex 0 has one cell above and two below. *)
From Coq Require Import Reals List Bool Arith ZArith Lia Lra Permutation.
From Verif Require Import Prelude Arrays Geom Mpfao SpecMpfao SpecSubcell Numbering SpecNumbering NumberingExample
  Traversal SpecTraversal TraversalExample Levels SpecLevels LevelsProofs.
Import ListNotations.
Local Open Scope nat_scope.

Definition stepx : list v3 :=
  [V3 0 0 0; V3 0 0 1; V3 0 1 0; V3 0 1 1; V3 (-1) 0 0; V3 (-1) 0 1; V3 (-1) 1 0; V3 (-1) 1 1;
   V3 0 0 (-1); V3 0 1 (-1); V3 (-1) 0 (-1); V3 (-1) 1 (-1); V3 1 0 0; V3 1 0 (-1); V3 1 1 0; V3 1 1 (-1)]%R.
Definition step : terrain := mkTerrain
  (mkShape stepx [] [] [[0; 3; 4; 7; 8; 9]; [0; 1; 5; 10; 11; 12]; [1; 2; 6; 13; 14; 15]])
  [[0; 1; 2; 3; 4; 5; 6; 7]; [0; 8; 2; 9; 4; 10; 6; 11]; [0; 8; 2; 9; 12; 13; 14; 15]]
  (k_fverts ex ++ [[1; 3; 7; 5]; [4; 6; 7; 5]; [2; 3; 7; 6]; [8; 9; 11; 10]; [4; 6; 11; 10]; [2; 9; 11; 6]; [8; 9; 15; 13]; [12; 14; 15; 13]; [2; 9; 15; 14]])
  ([true; true] ++ repeat false 14)
  [[0; 1; 2]; [0]; [0; 1; 2]; [0]; [0; 1]; [0]; [0; 1]; [0]; [1; 2]; [1; 2]; [1]; [1]; [2]; [2]; [2]; [2]]
  (repeat true 16).

Lemma sp0 : partner step 0 0 = Ok (Some 1).
Proof. unfold partner. cbn [rd t_cverts step nth_error bind partner_in Nat.eqb]. unfold same_xy. cbn [rd t_h step h_vx stepx nth_error bind vx vy]. lts. reflexivity. Qed.
Lemma sp1 : partner step 1 0 = Ok (Some 8).
Proof. unfold partner. cbn [rd t_cverts step nth_error bind partner_in Nat.eqb]. unfold same_xy. cbn [rd t_h step h_vx stepx nth_error bind vx vy]. lts. reflexivity. Qed.
Lemma sp2 : partner step 2 0 = Ok (Some 8).
Proof. unfold partner. cbn [rd t_cverts step nth_error bind partner_in Nat.eqb]. unfold same_xy. cbn [rd t_h step h_vx stepx nth_error bind vx vy]. lts. reflexivity. Qed.
Lemma sa0 : IsCellAboveTheVertex step 0 0 = Ok true.
Proof. unfold IsCellAboveTheVertex. rewrite sp0. cbn [rd t_h step h_vx stepx nth_error bind vz]. lts. reflexivity. Qed.
Lemma sa1 : IsCellAboveTheVertex step 1 0 = Ok false.
Proof. unfold IsCellAboveTheVertex. rewrite sp1. cbn [rd t_h step h_vx stepx nth_error bind vz]. lts. reflexivity. Qed.
Lemma sa2 : IsCellAboveTheVertex step 2 0 = Ok false.
Proof. unfold IsCellAboveTheVertex. rewrite sp2. cbn [rd t_h step h_vx stepx nth_error bind vz]. lts. reflexivity. Qed.
Lemma sb1 : bnd_sides step 0 1 = Ok 1.
Proof. unfold bnd_sides. rewrite sp1. reflexivity. Qed.
Lemma sb2 : bnd_sides step 0 2 = Ok 1.
Proof. unfold bnd_sides. rewrite sp2. reflexivity. Qed.
Lemma step_error : DetermineCellsAboveAndBelow step 0 = Err.
Proof.
  unfold DetermineCellsAboveAndBelow. cbn [rd t_vcells step nth_error bind split_levels]. rewrite sa0. cbn [bind]. rewrite sa1. cbn [bind]. rewrite sa2.
  cbn [bind fst snd]. unfold arrange_level. cbn [length Nat.ltb Nat.leb bind all_sides]. rewrite sb1. cbn [bind]. rewrite sb2. reflexivity.
Qed.
Lemma step_levels : SetupLevels step = Ok (unset step, unset step).
Proof.
  unfold SetupLevels, FindCellsAboveAndBelowVertices. cbn [t_vcells step length seq visits]. unfold visit.
  cbn [rd t_local step repeat nth_error bind negb fst snd unset t_vcells length]. unfold FindCellsAboveAndBelowAVertex. rewrite step_error. reflexivity.
Qed.
Lemma step_upwind : DetermineUpwindFaces 7 (t_h step) ex (row_of (unset step) 0) (row_of (unset step) 0) = UB.
Proof. reflexivity. Qed.
