(** Model of the geometric attributes of the internal faces of a mesh that is read from a
    file (src/fv/share/tdymeshcustom.c:987-1141).

    [coords], [cents]: ugrid->vertices and cells->centroid.  [fv], [k]: the table
    face_to_vertex and the connections ([MeshFaces]).  faces->cell_offset of a
    connection is twice its number (lines 934-936). *)
From Coq Require Import Reals List ZArith Bool.
From Verif Require Import Prelude Arrays Geom UGrid FaceGeo MeshFaces.
Import ListNotations.
Local Open Scope R_scope.

(** ComputeTriAreasAndIntercpet, lines 1003-1037: area, projected area and intercept
    ([None]: not a number). *)
Record tri := mkTri { i_area : R; i_proj : R; i_at : v3 }.
Definition tri_attrs (up dn u p1 p2 p3 : v3) : option tri :=
  let cp := CrossProduct (VecJoining p2 p3) (VecJoining p2 p1) in
  let m := sqrt (DotProduct cp cp) in
  match over cp m, PlaneIntercept (ComputePlaneGeometry p1 p2 p3) up dn with
  | Some n1, Some x => Some (mkTri (0.5 * m) (Rabs (0.5 * m * DotProduct n1 u)) x)
  | _, _ => None
  end.

(** area, projected_area, dist_up_dn, dist, dist_wt_up, unit_vec_up_dn *)
Record cattrs := mkCattrs { c_area : R; c_proj : R; c_up : R; c_dn : R; c_dist : R; c_wt : R; c_u : v3 }.
(** Lines 1119-1136 *)
Definition distances (up dn x : v3) (area proj : R) : option cattrs :=
  let v1 := VecJoining up x in
  let v2 := VecJoining x dn in
  let v3 := V3 (vx v1 + vx v2) (vy v1 + vy v2) (vz v1 + vz v2) in
  let dist_up := sqrt (DotProduct v1 v1) in
  let dist_dn := sqrt (DotProduct v2 v2) in
  match over v3 (sqrt (DotProduct v3 v3)), fdiv dist_up (dist_up + dist_dn) with
  | Some u, Some w => Some (mkCattrs area proj dist_up dist_dn (dist_up + dist_dn) w u)
  | _, _ => None
  end.
(** Lines 1081-1136, given the points; [p4]: the fourth vertex, if there is one. *)
Definition conn_geometry (up dn p1 p2 p3 : v3) (p4 : option v3) : option cattrs :=
  let v1 := VecJoining up dn in
  match over v1 (sqrt (DotProduct v1 v1)) with
  | None => None
  | Some u =>
    match tri_attrs up dn u p1 p2 p3, p4 with
    | Some t1, None => distances up dn (i_at t1) (i_area t1 + 0) (i_proj t1 + 0)
    | Some t1, Some p4 =>
        match tri_attrs up dn u p1 p4 p3 with
        | Some t2 =>
            let x := i_at t1 in let y := i_at t2 in
            distances up dn (V3 ((vx x + vx y) / 2) ((vy x + vy y) / 2) ((vz x + vz y) / 2)) (i_area t1 + i_area t2) (i_proj t1 + i_proj t2)
        | None => None
        end
    | None, _ => None
    end
  end.

Section Attributes.
Variables coords cents : list v3.
Variable fv : table.
Variable k : conns.

Definition conn_attrs (iface : nat) : outcome (option cattrs) :=
  do a <- rd (k_cells k) (2 * iface);
  do b <- rd (k_cells k) (2 * iface + 1);
  do up <- rdz cents a;
  do dn <- rdz cents (Z.abs b);
  do f <- rd (k_face k) iface;
  do i1 <- rd2 fv 0 f; do i2 <- rd2 fv 1 f; do i3 <- rd2 fv 2 f;
  do p1 <- rdz coords i1; do p2 <- rdz coords i2; do p3 <- rdz coords i3;
  do nv <- rd (k_nv k) iface;
  do p4 <- (if (nv =? 4)%nat then do i4 <- rd2 fv 3 f; do p <- rdz coords i4; Ok (Some p) else Ok None);
  Ok (conn_geometry up dn p1 p2 p3 p4).

(** The arrays of the faces; dist_up_dn and unit_vec_up_dn have one row per face. *)
Record ctables := mkCtables { h_area : list R; h_proj : list R; h_updn : list (list R); h_dist : list R; h_wt : list R; h_unit : list (list R) }.
(** AllocateFaces, src/fv/share/tdymesh.c:290-295: rows of two numbers. *)
Definition allocate_ctables (n : nat) : ctables :=
  mkCtables (repeat 0 n) (repeat 0 n) (repeat (repeat 0 2) n) (repeat 0 n) (repeat 0 n) (repeat (repeat 0 2) n).
(** Lines 1126-1138.  What is stored when a number is not finite is not modelled
    ([Err]). *)
Definition store_conn (i : nat) (a : option cattrs) (t : ctables) : outcome ctables :=
  match a with
  | None => Err
  | Some a =>
    do area <- wr (h_area t) i (c_area a);
    do proj <- wr (h_proj t) i (c_proj a);
    do d <- rd (h_updn t) i; do d <- wr d 0 (c_up a); do d <- wr d 1 (c_dn a); do updn <- wr (h_updn t) i d;
    do dist <- wr (h_dist t) i (c_dist a);
    do wt <- wr (h_wt t) i (c_wt a);
    do u <- rd (h_unit t) i; do u <- store3 u (c_u a); do unit <- wr (h_unit t) i u;
    Ok (mkCtables area proj updn dist wt unit)
  end.
(** ComputeGeoAttrOfInternalFaces, lines 1050-1141; mesh->num_faces is the number of
    connections. *)
Definition attrs_of_conns (t : ctables) : outcome ctables :=
  for_ (k_n k) (fun i t => do a <- conn_attrs i; store_conn i a t) t.
End Attributes.
