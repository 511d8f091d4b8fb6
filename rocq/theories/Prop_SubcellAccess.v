(** C110: the arrays of the sub-cells and the functions that hand them out. *)
From Coq Require Import List Arith ZArith Lia.
From Verif Require Import Prelude Arrays Mesh SubcellAccess SpecSubcellAccess SubcellAccessProofs.
Import ListNotations.
Local Open Scope nat_scope.

(** The arrays are filled with three entries per sub-cell (eight corners): after the
    allocation of counts and offsets and the compression every sub-cell is handed its own
    entries, although the functions for the nu vectors, the nu star vectors and the points
    of continuity take the start from the offsets of the faces. *)
Theorem C110_own_entries : forall (A : Type) (blank : A) n f faces up unknown flux area vertices nu nustar continuity centroid corners,
  0 < n ->
  table n 3 faces (s_faces f) -> table n 3 up (s_up f) -> table n 3 unknown (s_unknown f) -> table n 3 flux (s_flux f) ->
  table n 3 area (s_area f) -> table n 3 vertices (s_vertices f) -> table n 3 nu (s_nu f) -> table n 3 nustar (s_nustar f) ->
  table n 3 continuity (s_continuity f) -> table n 3 centroid (s_centroid f) -> table n 8 corners (s_corners f) ->
  exists s s', allocate_subcells n f = Ok s /\ compress_subcells blank n s = Ok s' /\ forall i, i < n ->
    (forall l, nth_error faces i = Some l -> GetSubcellFaces s' i = Ok l) /\
    (forall l, nth_error up i = Some l -> GetSubcellIsFaceUp s' i = Ok l) /\
    (forall l, nth_error unknown i = Some l -> GetSubcellFaceUnknownIdxs s' i = Ok l) /\
    (forall l, nth_error flux i = Some l -> GetSubcellFaceFluxIdxs s' i = Ok l) /\
    (forall l, nth_error area i = Some l -> GetSubcellFaceAreas s' i = Ok l) /\
    (forall l, nth_error vertices i = Some l -> GetSubcellVertices s' i = Ok l) /\
    (forall l, nth_error nu i = Some l -> GetSubcellNuVectors s' i = Ok l) /\
    (forall l, nth_error nustar i = Some l -> GetSubcellNuStarVectors s' i = Ok l) /\
    (forall l, nth_error continuity i = Some l -> GetSubcellVariableContinuityCoordinates s' i = Ok l).
Proof. exact own_entries. Qed.

(** The compression itself loses nothing: the arrays, those of the face centroids and of
    the corners included, hold the same entries as before, and the offsets are multiples of
    the number of entries per sub-cell. *)
Theorem C110_kept : forall (A : Type) (blank : A) n f faces up unknown flux area vertices nu nustar continuity centroid corners,
  0 < n ->
  table n 3 faces (s_faces f) -> table n 3 up (s_up f) -> table n 3 unknown (s_unknown f) -> table n 3 flux (s_flux f) ->
  table n 3 area (s_area f) -> table n 3 vertices (s_vertices f) -> table n 3 nu (s_nu f) -> table n 3 nustar (s_nustar f) ->
  table n 3 continuity (s_continuity f) -> table n 3 centroid (s_centroid f) -> table n 8 corners (s_corners f) ->
  exists s s', allocate_subcells n f = Ok s /\ compress_subcells blank n s = Ok s' /\
    s_centroid s' = concat centroid /\ s_corners s' = concat corners /\
    forall k, k <= n -> nth_error (s_foff s') k = Some (Z.of_nat (k * 3)) /\ nth_error (s_noff s') k = Some (Z.of_nat (k * 3)) /\
      nth_error (s_voff s') k = Some (Z.of_nat (k * 8)).
Proof. exact kept. Qed.

(** The function for the centroids of the faces hands out the points of continuity
    instead, whatever the centroids are. *)
Theorem C110_centroids_refuted : forall (A : Type) (blank : A) n f faces up unknown flux area vertices nu nustar continuity centroid corners,
  0 < n ->
  table n 3 faces (s_faces f) -> table n 3 up (s_up f) -> table n 3 unknown (s_unknown f) -> table n 3 flux (s_flux f) ->
  table n 3 area (s_area f) -> table n 3 vertices (s_vertices f) -> table n 3 nu (s_nu f) -> table n 3 nustar (s_nustar f) ->
  table n 3 continuity (s_continuity f) -> table n 3 centroid (s_centroid f) -> table n 8 corners (s_corners f) ->
  exists s s', allocate_subcells n f = Ok s /\ compress_subcells blank n s = Ok s' /\ forall i l c, i < n ->
    nth_error continuity i = Some l -> nth_error centroid i = Some c ->
    GetSubcellFaceCentroids s' i = Ok l /\ (l <> c -> GetSubcellFaceCentroids s' i <> Ok c).
Proof. exact centroids_wrong. Qed.

(** The function for the corners takes its offsets from the faces, but every sub-cell has
    eight corners: it hands out three of them, and those of every sub-cell but the first
    belong to sub-cells before it. *)
Theorem C110_corners_refuted : forall (A : Type) (blank : A) n f faces up unknown flux area vertices nu nustar continuity centroid corners,
  0 < n ->
  table n 3 faces (s_faces f) -> table n 3 up (s_up f) -> table n 3 unknown (s_unknown f) -> table n 3 flux (s_flux f) ->
  table n 3 area (s_area f) -> table n 3 vertices (s_vertices f) -> table n 3 nu (s_nu f) -> table n 3 nustar (s_nustar f) ->
  table n 3 continuity (s_continuity f) -> table n 3 centroid (s_centroid f) -> table n 8 corners (s_corners f) ->
  exists s s', allocate_subcells n f = Ok s /\ compress_subcells blank n s = Ok s' /\ forall i, i < n ->
    exists l, GetSubcellVerticesCoordinates s' i = Ok l /\ length l = 3 /\ nth_error corners i <> Some l /\
      (1 <= i -> forall x, In x l -> exists r row, r < i /\ nth_error corners r = Some row /\ In x row).
Proof. exact corners_wrong. Qed.

(** A process without cells: the compression reads the count of a sub-cell that does not
    exist. *)
Theorem C110_no_cells_refuted : forall (A : Type) (blank : A) (f : subcells A),
  exists s, allocate_subcells 0 f = Ok s /\ compress_subcells blank 0 s = UB.
Proof. exact no_cells. Qed.

(** Two sub-cells with numbered entries. *)
Definition numbered (k d : nat) : list nat := seq (100 * k) (2 * d).
Definition two : subcells nat := mkSubcells [] [] [] [] [] []
  (numbered 1 3) (numbered 2 3) (numbered 3 3) (numbered 4 3) (numbered 5 3) (numbered 6 3)
  (numbered 7 3) (numbered 8 3) (numbered 9 3) (numbered 10 3) (numbered 11 8).
Example C110_example :
  (do s <- allocate_subcells 2 two; do s <- compress_subcells 0 2 s;
   do a <- GetSubcellFaces s 1; do b <- GetSubcellNuVectors s 1; do c <- GetSubcellFaceCentroids s 1; do e <- GetSubcellVerticesCoordinates s 1; Ok (a, b, c, e))
  = Ok ([103; 104; 105], [703; 704; 705], [903; 904; 905], [1103; 1104; 1105]).
Proof. reflexivity. Qed.
Example C110_tables : table 2 3 [[103 - 3; 101; 102]; [103; 104; 105]] (s_faces two) /\
  table 2 8 [[1100; 1101; 1102; 1103; 1104; 1105; 1106; 1107]; [1108; 1109; 1110; 1111; 1112; 1113; 1114; 1115]] (s_corners two).
Proof. split; (split; [reflexivity|]; split; [repeat constructor|reflexivity]). Qed.

Print Assumptions C110_own_entries.
Print Assumptions C110_kept.
Print Assumptions C110_centroids_refuted.
Print Assumptions C110_corners_refuted.
Print Assumptions C110_no_cells_refuted.
