(** Model of the areas and centres of the faces of a mesh that is read from a file
    (src/fv/share/tdymeshcustom.c:952-984 and 1143-1216).

    [cf], [fv]: the tables cell_to_face and face_to_vertex ([MeshFaces]); [cnv],
    [coords]: the number of vertices of the cells and ugrid->vertices.
    max_face_per_cell is 6 and max_vert_per_face 4 (src/fv/share/tdyugrid.c:50-51).
    Simplification: the loops over the three coordinates are additions of vectors. *)
From Coq Require Import Reals List ZArith Bool.
From Verif Require Import Prelude Arrays Geom UGrid MeshFaces.
Import ListNotations.
Local Open Scope R_scope.

(** ComputeTriArea, lines 961-984. *)
Definition tri_area (p1 p2 p3 : v3) : R :=
  let cp := CrossProduct (VecJoining p2 p3) (VecJoining p2 p1) in 0.5 * sqrt (DotProduct cp cp).

Record geo := mkGeo { g_set : list bool; g_area : list R; g_cent : list v3 }.

Section FaceGeometry.
Variables (cnv : list nat) (cf fv : table) (coords : list v3).

(** Lines 1199-1208: the sum of the vertices of the face [f] and their number, added
    to [x]. *)
Definition sum_vertices (f : Z) (x : v3) : outcome (v3 * nat) :=
  for_ 4 (fun iv st =>
    do i <- rd2 fv iv f;
    if (0 <=? i)%Z then
      do p <- rdz coords i;
      Ok (V3 (vx (fst st) + vx p) (vy (fst st) + vy p) (vz (fst st) + vz p), S (snd st))
    else Ok st) (x, 0%nat).

(** Lines 1174-1211, one side of one cell. *)
Definition geo_of_side (icell iface : nat) (st : geo) : outcome geo :=
  do f <- rd2 cf iface (Z.of_nat icell);
  if (f =? -1)%Z then Ok st else
  do done <- rdz (g_set st) f;
  if done then Ok st else
  do set <- wrz (g_set st) f true;
  do i1 <- rd2 fv 0 f; do i2 <- rd2 fv 1 f; do i3 <- rd2 fv 2 f;
  do p1 <- rdz coords i1; do p2 <- rdz coords i2; do p3 <- rdz coords i3;
  do n <- rd cnv icell; do ct <- GetCellType n;
  do area2 <- (if (NumVerticesOfFaceType (FaceTypeOf ct iface) =? 4)%nat
               then do i4 <- rd2 fv 3 f; do p4 <- rdz coords i4; Ok (tri_area p1 p4 p3) else Ok 0);
  do area <- wrz (g_area st) f (tri_area p1 p2 p3 + area2);
  do x <- rdz (g_cent st) f;
  do s <- sum_vertices f x;
  let n := INR (snd s) in
  do cent <- wrz (g_cent st) f (V3 (vx (fst s) / n) (vy (fst s) / n) (vz (fst s) / n));
  Ok (mkGeo set area cent).

(** ComputeGeoAttrOfUGridFaces; [a0]: what TDyAllocate_RealArray_1D fills the areas
    with. *)
Definition geo_of_faces (nlmax num_faces : nat) (a0 : R) : outcome geo :=
  for_ nlmax (fun icell st => for_ 6 (fun iface st => geo_of_side icell iface st) st)
    (mkGeo (repeat false num_faces) (repeat a0 num_faces) (repeat (V3 0 0 0) num_faces)).
End FaceGeometry.
