(** Properties of regions. *)
From Coq Require Import Reals Bool List ZArith Lia Lra.
From Verif Require Import Prelude Arrays Region SpecRegion RegionProofs.
Import ListNotations.
Local Open Scope Z_scope.

(** C46: for valid cells the test is exact, whatever the history before. *)
Theorem C46_same_region_test_exact : forall r ids c1 c2, valid_cell ids c1 -> valid_cell ids c2 ->
  exists v, AreCellsInTheSameRegion (RegionAddCells ids r) c1 c2 = Ok v /\ (is_false v = false <-> same_region ids c1 c2).
Proof. exact same_region_proof. Qed.

(** Only the last addition counts ... *)
Theorem C46_last_addition_wins : forall (l : list (list Z)) r ids, cell_ids (fold_left (fun r ids => RegionAddCells ids r) (l ++ [ids]) r) = Some ids
  /\ num_cells (fold_left (fun r ids => RegionAddCells ids r) (l ++ [ids]) r) = Z.of_nat (length ids).
Proof. exact last_addition_proof. Qed.

(** ... so cells added earlier are gone, and their array is leaked. *)
Theorem C46_additions_accumulate_refuted : exists a b,
  cell_ids (RegionAddCells b (RegionAddCells a RegionCreate)) = Some b /\ b <> (a ++ b)%list
  /\ leaked (RegionAddCells b (RegionAddCells a RegionCreate)) = 1%nat.
Proof. exists [7], [8]. split; [reflexivity|]. split; [discriminate|reflexivity]. Qed.

(** A cell beyond the region is not an error but "in the same region". *)
Theorem C46_cell_beyond_region : forall r ids c1 c2, Z.of_nat (length ids) <= c1 \/ Z.of_nat (length ids) <= c2 ->
  AreCellsInTheSameRegion (RegionAddCells ids r) c1 c2 = Ok 83.
Proof. exact beyond_proof. Qed.

(** A cell number beyond the region passes as being in the same region; a negative one is used as an index. *)
Theorem C46_invalid_cell_is_error_refuted : exists ids v,
  AreCellsInTheSameRegion (RegionAddCells ids RegionCreate) 0 5 = Ok v /\ is_false v = false
  /\ AreCellsInTheSameRegion (RegionAddCells ids RegionCreate) (-1) 0 = UB.
Proof. exists [1; 2], 83. repeat split; reflexivity. Qed.

Example C46_example :
  AreCellsInTheSameRegion (RegionAddCells [4; 5; 4] RegionCreate) 0 2 = Ok 1
  /\ AreCellsInTheSameRegion (RegionAddCells [4; 5; 4] RegionCreate) 0 1 = Ok 0.
Proof. split; reflexivity. Qed.

(** C55: the transmissibility rows of the faces between two regions are zeroed,
    all other rows are kept. *)
Theorem C55_faces_between_regions_closed : forall r ids faces T, length T = (length faces * 4)%nat ->
  (forall u d, In (u, d) faces -> 0 <= u -> 0 <= d -> valid_cell ids u /\ valid_cell ids d) ->
  exists T', UpdateTransmissibilityMatrix (RegionAddCells ids r) faces T = Ok T' /\ length T' = length T
    /\ (forall i f s row p, nth_error faces i = Some f -> (s < 4)%nat -> separated ids f ->
         nth_error T' (i * 4 + s) = Some row -> row_times row p = 0%R)
    /\ (forall i f s, nth_error faces i = Some f -> (s < 4)%nat -> ~ separated ids f ->
         nth_error T' (i * 4 + s) = nth_error T (i * 4 + s)).
Proof.
  intros r ids faces T HT Hv. destruct (update_proof r ids faces 0 T HT Hv) as [T' [E [L [_ Z]]]].
  exists T'. split; [exact E|]. split; [exact L|]. split.
  - intros i f s row p Hf Hs Hsep Hr. destruct (Z i f s Hf Hs) as [A _]. specialize (A Hsep). simpl in A. rewrite A in Hr.
    destruct (nth_error T (i * 4 + s)); [|discriminate Hr]. injection Hr as <-. apply row_times_zero.
  - intros i f s Hf Hs Hn. destruct (Z i f s Hf Hs) as [_ B]. exact (B Hn).
Qed.

Example C55_example : UpdateTransmissibilityMatrix (RegionAddCells [1; 1; 2] RegionCreate) [(0, 1); (1, 2); (-1, 2)]
    [[1%R];[2%R];[3%R];[4%R]; [5%R];[6%R];[7%R];[8%R]; [9%R];[10%R];[11%R];[12%R]]
  = Ok [[1%R];[2%R];[3%R];[4%R]; [0%R];[0%R];[0%R];[0%R]; [9%R];[10%R];[11%R];[12%R]].
Proof. reflexivity. Qed.

Print Assumptions C46_same_region_test_exact.
Print Assumptions C46_last_addition_wins.
Print Assumptions C46_additions_accumulate_refuted.
Print Assumptions C46_cell_beyond_region.
Print Assumptions C46_invalid_cell_is_error_refuted.
Print Assumptions C55_faces_between_regions_closed.
