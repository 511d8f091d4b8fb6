(** Model of the sub-cells of the multi-point flux scheme: SetupSubcells and its
    helpers (src/fv/share/tdymeshplex.c) and the G matrices (src/fv/mpfao/tdympfao.c).

    The mesh has three dimensions.  Points are triples of reals; a division by zero is
    not finite. *)
From Coq Require Import Reals List Bool Arith ZArith.
From Verif Require Import Prelude Arrays Geom.
Import ListNotations.
Local Open Scope R_scope.

(** The part of TDyMesh that SetupSubcells reads: cells->centroid, vertices->coordinate,
    faces->centroid, faces->normal, faces->area, the two cells of a face (faces->cell_ids;
    negative on the outside), the vertices of a face and the faces of a vertex. *)
Record geo := mkGeo {
  g_cc : list v3; g_vx : list v3;
  g_fc : list v3; g_fn : list v3; g_fa : list R;
  g_fcells : list (Z * Z); g_fverts : list (list nat); g_vfaces : list (list nat)
}.

(** FindFaceIDsOfACellCommonToAVertex, lines 236-275: the faces found and their number;
    a fourth face is counted but not stored. *)
Fixpoint common_faces (g : geo) (cell : Z) (l got : list nat) : outcome (list nat * nat) :=
  match l with
  | [] => Ok (got, length got)
  | f :: l =>
      do c <- rd (g_fcells g) f;
      if (fst c =? cell)%Z || (snd c =? cell)%Z
      then if (length got =? 3)%nat then Ok (got, 4%nat) else common_faces g cell l (got ++ [f])
      else common_faces g cell l got
  end.

(** UpdateFaceOrientationAroundAVertex, lines 1384-1413. *)
Definition orient (g : geo) (cen vtx : v3) (f0 f1 f2 : nat) : outcome (nat * nat * nat) :=
  do x0 <- rd (g_fc g) f0;
  do x1 <- rd (g_fc g) f1;
  do x2 <- rd (g_fc g) f2;
  if Rlt_dec (DotProduct (CrossProduct (VecJoining x0 x1) (VecJoining x0 x2)) (VecJoining vtx cen)) 0
  then Ok (f0, f2, f1) else Ok (f0, f1, f2).

(** FindNeighboringVerticesOfAFace, lines 155-196: the vertices of the face are written
    down starting with [v]; the second and the last of them are the answer.  Not found:
    the error is not checked by the caller, the neighbours are uninitialised. *)
Fixpoint first_index (l : list nat) (v i : nat) : option nat :=
  match l with
  | [] => None
  | x :: l => if (x =? v)%nat then Some i else first_index l v (S i)
  end.
Definition neighbours (l : list nat) (v : nat) : outcome (nat * nat) :=
  match first_index l v 0 with
  | None => UB
  | Some start =>
      let turned := skipn start l ++ firstn start l in
      do a <- rd turned 1;
      do b <- rd turned (length l - 1);
      Ok (a, b)
  end.

Definition mid (a b : v3) : v3 := V3 ((vx a + vx b) / 2) ((vy a + vy b) / 2) ((vz a + vz b) / 2).
(** The centroid of a sub-face, lines 2932-2936. *)
Definition subface_centroid (g : geo) (vtx : v3) (iv f : nat) : outcome v3 :=
  do xf <- rd (g_fc g) f;
  do vs <- rd (g_fverts g) f;
  do n <- neighbours vs iv;
  do a <- rd (g_vx g) (fst n);
  do b <- rd (g_vx g) (snd n);
  Ok (centre4 vtx (mid vtx a) xf (mid vtx b)).
(** The area of a sub-face, lines 2940-2944. *)
Definition subface_area (g : geo) (f : nat) : outcome fl :=
  do a <- rd (g_fa g) f;
  do vs <- rd (g_fverts g) f;
  Ok (fdiv a (INR (length vs))).

(** nu_star of a face, lines 2985-3030: one number, written to the three components.
    [vol] is the volume of the tetrahedron. *)
Definition neighbour_cell (c : Z * Z) (icell : nat) : Z :=
  if (fst c =? Z.of_nat icell)%Z then snd c else fst c.
Definition other_point (g : geo) (icell f : nat) : outcome (v3 * bool) :=
  do c <- rd (g_fcells g) f;
  let n := neighbour_cell c icell in
  if (0 <=? n)%Z then do x <- rd (g_cc g) (Z.to_nat n); Ok (x, true)
  else do x <- rd (g_fc g) f; Ok (x, false).
Definition half_dist (other cen : v3) (inside : bool) : fl :=
  fl1 (fun d => if inside then d * 0.5 else d) (ComputeLength other cen).
Definition nu_star (g : geo) (icell : nat) (cen : v3) (vol : R) (f : nat) : outcome fl :=
  do o <- other_point g icell f;
  do n <- rd (g_fn g) f;
  Ok (fbind (half_dist (fst o) cen (snd o)) (fun dist =>
      match UnitNormalVectorJoining (fst o) cen with
      | Some u => fdiv (DotProduct n u * vol * 6) dist
      | None => None
      end)).

(** What is stored for one sub-cell: face_ids, T, nu_vector, face_area, nu_star_vector and
    the sub-face centroids. *)
Record sub := mkSub {
  s_faces : nat * nat * nat; s_T : R; s_nu : v3 * v3 * v3;
  s_area : fl * fl * fl; s_star : fl * fl * fl; s_cen : v3 * v3 * v3
}.

(** The body of the loop over sub-cells, lines 2862-3034.  The errors of
    FindFaceIDsOfACellCommonToAVertex are not checked (line 2886): with fewer than three
    faces uninitialised numbers are used as indices, with more than three the loop over
    num_shared_faces leaves face_cen[3][3]. *)
Definition SetupSubcell (g : geo) (icell iv : nat) : outcome sub :=
  do cen <- rd (g_cc g) icell;
  do vtx <- rd (g_vx g) iv;
  do l <- rd (g_vfaces g) iv;
  do fn <- common_faces g (Z.of_nat icell) l [];
  match fn with
  | ([a; b; c], 3%nat) =>
      do f <- orient g cen vtx a b c;
      let '(f0, f1, f2) := f in
      do x0 <- rd (g_fc g) f0;
      do x1 <- rd (g_fc g) f1;
      do x2 <- rd (g_fc g) f2;
      let vol := ComputeVolumeOfTetrahedron cen x0 x1 x2 in
      do c0 <- subface_centroid g vtx iv f0;
      do c1 <- subface_centroid g vtx iv f1;
      do c2 <- subface_centroid g vtx iv f2;
      do a0 <- subface_area g f0;
      do a1 <- subface_area g f1;
      do a2 <- subface_area g f2;
      do t0 <- nu_star g icell cen vol f0;
      do t1 <- nu_star g icell cen vol f1;
      do t2 <- nu_star g icell cen vol f2;
      Ok (mkSub (f0, f1, f2) (vol * 6)
            (NormalToTriangle cen x1 x2, NormalToTriangle cen x2 x0, NormalToTriangle cen x0 x1)
            (a0, a1, a2) (t0, t1, t2) (c0, c1, c2))
  | _ => UB
  end.

(** The arrays of TDySubcell: one record per sub-cell (fields without centroids), and the
    two arrays of coordinates, three per sub-cell.  TDyMeshGetSubcellFaceCentroids
    (src/fv/share/tdymesh.c:1531-1539) hands out variable_continuity_coordinates. *)
Record store := mkStore { st_sub : list (option sub); st_centroid : list v3; st_continuity : list v3 }.
Definition put_centroids (l : list v3) (id : nat) (c : v3 * v3 * v3) : outcome (list v3) :=
  let '(c0, c1, c2) := c in
  do l <- wr l (3 * id) c0;
  do l <- wr l (3 * id + 1) c1;
  wr l (3 * id + 2) c2.
Definition set_subcell (st : store) (id : nat) (s : sub) : outcome store :=
  do l <- wr (st_sub st) id (Some s);
  do k <- put_centroids (st_continuity st) id (s_cen s);
  Ok (mkStore l (st_centroid st) k).

(** SetupSubcells, lines 2829-3036 (the loop over cells).  [cverts] lists the vertices of
    each cell; [n] is num_subcells, the same for all cells (AllocateCells,
    src/fv/share/tdymesh.c:30, 65): 8 for hexahedra, 6 for wedges.  The sub-cell is number
    icell*num_subcells[icell]+isubcell. *)
Definition setup_cell (g : geo) (n : nat) (cverts : list (list nat)) (i : nat) (st : store) : outcome store :=
  do vs <- rd cverts i;
  for_ n (fun j st =>
    do iv <- rd vs j;
    do s <- SetupSubcell g i iv;
    set_subcell st (i * n + j) s) st.
Definition SetupSubcells (g : geo) (n : nat) (cverts : list (list nat)) (st : store) : outcome store :=
  for_ (length cverts) (setup_cell g n cverts) st.

(** TDySubCell_GetIthFaceCentroid, lines 62-73: reads face_centroid. *)
Definition ith_centroid (st : store) (id i : nat) : outcome v3 :=
  if (3 <=? i)%nat then Err else rd (st_centroid st) (3 * id + i).

(** ComputeEntryOfGMatrix, src/fv/mpfao/tdympfao.c:13-37. *)
Definition mulv (K : m3) (v : v3) : v3 :=
  V3 (m0 K * vx v + m1 K * vy v + m2 K * vz v)
     (m3_ K * vx v + m4 K * vy v + m5 K * vz v)
     (m6 K * vx v + m7 K * vy v + m8 K * vz v).
Definition EntryOfG (area : R) (n : v3) (K : m3) (v : v3) (T : R) : fl :=
  flet r := fdiv 1 T; Some (DotProduct n (mulv K v) * (r * area)).

(** One row of the G matrix of a sub-cell, ComputeGMatrix_MPFAO, lines 39-126; the same
    for the pressure (K0), the temperature (Kappa0) and the saline concentration
    (D_saline). *)
Definition row_G (K : m3) (s : sub) (n : v3) (area : R) : option (R * R * R) :=
  let '(v0, v1, v2) := s_nu s in
  flet g0 := EntryOfG area n K v0 (s_T s);
  flet g1 := EntryOfG area n K v1 (s_T s);
  flet g2 := EntryOfG area n K v2 (s_T s);
  Some (g0, g1, g2).

(** ComputeGMatrix_TPF, lines 128-274, the diagonal entry of a face (the others are 0).
    [K] and [Kn] are the tensors of the cell and of its neighbour (of the cell itself on
    the boundary); the directional values, lines 232-245. *)
Definition directional (K : m3) (u : v3) : fl :=
  flet a := fdiv (vx u ^ 2) (m0 K);
  flet b := fdiv (vy u ^ 2) (m4 K);
  flet c := fdiv (vz u ^ 2) (m8 K);
  fdiv 1 (0 + a + b + c).
Definition tpf_G (area : R) (n other cen : v3) (inside : bool) (K Kn : m3) : fl :=
  flet dist := half_dist other cen inside;
  match UnitNormalVectorJoining other cen with
  | Some u =>
      flet kn := directional Kn u;
      flet k := directional K u;
      fdiv (area * DotProduct n u * (0.5 * k + 0.5 * kn)) dist
  | None => None
  end.
(** The diagonal entry for the temperature, lines 256-265: nu_star in all three
    components.  For the saline concentration nothing is written (lines 256-266 know
    only Temp_subc_Gmatrix): Psi_subc_Gmatrix keeps the zeros it was allocated with. *)
Definition tpf_heat_G (area : R) (n : v3) (Kappa : m3) (star T : R) : fl :=
  EntryOfG area n Kappa (V3 star star star) T.
Definition tpf_psi_G : R := 0.
