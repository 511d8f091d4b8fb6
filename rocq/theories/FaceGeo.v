(** Model of the orientation of faces and of their geometric attributes
    (src/fv/share/tdymeshplex.c:3061-3172 and 3519-3677).

    dim = 3.  A face is a record; its row of the compressed table of vertices
    (see [Mesh]) is a list, of which faces->num_vertices is the length.
    [coords] and [cents] are vertices->coordinate and cells->centroid. *)
From Coq Require Import Reals List ZArith Bool.
From Verif Require Import Prelude Arrays Mesh Geom UGrid.
Import ListNotations.
Local Open Scope R_scope.

(** cell_ids, vertex_ids, centroid, normal ([None]: not a number) and area. *)
Record gface := mkGface { g_cells : Z * Z; g_verts : list Z; g_cen : v3; g_normal : option v3; g_area : R }.

(** Comparisons are false when an operand is not a number. *)
Definition negative (x : fl) : bool := match x with Some r => if Rlt_dec r 0 then true else false | None => false end.
Definition positive (x : fl) : bool := match x with Some r => if Rlt_dec 0 r then true else false | None => false end.
Definition fdot (a b : option v3) : fl := match a, b with Some a, Some b => Some (DotProduct a b) | _, _ => None end.

Section Orient.
Variables coords cents : list v3.

(** Lines 3091-3118: the third and fourth vertex are swapped if the normals of the
    first three and the last three vertices point in opposite directions. *)
Definition repair (vs : list Z) : outcome (list Z) :=
  do i1 <- rd vs 0; do v1 <- rdz coords i1;
  do i2 <- rd vs 1; do v2 <- rdz coords i2;
  do i3 <- rd vs 2; do v3 <- rdz coords i3;
  if (length vs =? 4)%nat then
    do i4 <- rd vs 3; do v4 <- rdz coords i4;
    if negative (fdot (UnitNormalToTriangle v1 v2 v3) (UnitNormalToTriangle v2 v3 v4))
    then do vs <- wr vs 2 i4; wr vs 3 i3
    else Ok vs
  else Ok vs.
(** Lines 3124-3128; v4 is not set unless there are four vertices. *)
Definition face_normal (vs : list Z) : outcome (option v3) :=
  do i1 <- rd vs 0; do v1 <- rdz coords i1;
  do i2 <- rd vs 1; do v2 <- rdz coords i2;
  do i3 <- rd vs 2; do v3 <- rdz coords i3;
  if (length vs =? 3)%nat then Ok (UnitNormalToTriangle v1 v2 v3)
  else if (length vs =? 4)%nat then
    do i4 <- rd vs 3; do v4 <- rdz coords i4; Ok (NormalToQuadrilateral v1 v2 v3 v4)
  else UB.
(** Lines 3151-3167. *)
Definition reversed (vs : list Z) : list Z :=
  match vs with
  | [a; b; c] => [c; b; a]
  | [a; b; c; d] => [d; c; b; a]
  | _ => vs
  end.
Definition opposite (n : option v3) : option v3 :=
  match n with Some n => Some (V3 (- vx n) (- vy n) (- vz n)) | None => None end.

Definition orient_face (f : gface) : outcome gface :=
  do vs <- repair (g_verts f);
  do c_cen <- rdz cents (fst (g_cells f));
  do n <- face_normal vs;
  let turned := positive (fdot n (Some (VecJoining (g_cen f) c_cen))) in
  let up := if turned then snd (g_cells f) else fst (g_cells f) in
  let dn := if turned then fst (g_cells f) else snd (g_cells f) in
  if (dn <? 0)%Z
  then Ok (mkGface (dn, up) (reversed vs) (g_cen f) (opposite n) (g_area f))
  else Ok (mkGface (up, dn) vs (g_cen f) n (g_area f)).

(** The loop over the faces; each iteration only touches its own face. *)
Definition orient_faces (fs : list gface) : outcome (list gface) := mapM orient_face fs.

(** ** ComputeGeoAttrOfFaces; use_pflotran_approach is 1 *)

(** dist_up, dist_dn, u_up2dn *)
Record reach := mkReach { r_up : R; r_dn : R; r_u : v3 }.

(** Lines 3629-3634 and 3643-3649. *)
Definition over (v : v3) (d : R) : option v3 :=
  fbind (fdiv (vx v) d) (fun x => fbind (fdiv (vy v) d) (fun y => fbind (fdiv (vz v) d) (fun z => Some (V3 x y z)))).

(** Lines 3598-3634: the point where the line between the cells meets the face. *)
Definition meeting (up dn p1 p2 p3 : v3) (p4 : option v3) : option v3 :=
  match PlaneIntercept (ComputePlaneGeometry p1 p2 p3) up dn, p4 with
  | Some x, None => Some x
  | Some x, Some p4 =>
      match PlaneIntercept (ComputePlaneGeometry p2 p3 p4) up dn with
      | Some y => Some (V3 ((vx x + vx y) / 2) ((vy x + vy y) / 2) ((vz x + vz y) / 2))
      | None => None
      end
  | None, _ => None
  end.
Definition reach_inner (up dn p1 p2 p3 : v3) (p4 : option v3) : option reach :=
  match meeting up dn p1 p2 p3 p4 with
  | Some x =>
    let v1 := VecJoining up x in
    let v2 := VecJoining x dn in
    let v3 := V3 (vx v1 + vx v2) (vy v1 + vy v2) (vz v1 + vz v2) in
    match over v3 (sqrt (DotProduct v3 v3)) with
    | Some u => Some (mkReach (sqrt (DotProduct v1 v1)) (sqrt (DotProduct v2 v2)) u)
    | None => None
    end
  | None => None
  end.
(** Lines 3602-3607 and 3636-3649; [c]: the cell that is projected, [dn]: coord_dn. *)
Definition reach_boundary (c dn p1 p2 p3 : v3) : option reach :=
  match ProjectPointOnPlane (ComputePlaneGeometry p1 p2 p3) c with
  | Some x =>
    let v2 := VecJoining x dn in
    match over v2 (sqrt (DotProduct v2 v2)) with
    | Some u => Some (mkReach 0 (sqrt (DotProduct v2 v2)) u)
    | None => None
    end
  | None => None
  end.

(** dist_up_dn, unit_vec_up_dn, dist_wt_up and projected_area of a face; the outer
    option: not a number. *)
Record attrs := mkAttrs { t_reach : reach; t_wt : fl; t_area : fl }.
Definition face_attrs (f : gface) : outcome (option attrs) :=
  let '(up, dn) := g_cells f in
  if ((up <? 0) && (dn <? 0))%Z then Err
  else if ((length (g_verts f) <? 3) || (4 <? length (g_verts f)))%nat%bool then Err
  else
    do coord_up <- (if (0 <=? up)%Z then rdz cents up else Ok (g_cen f));
    do coord_dn <- (if (0 <=? dn)%Z then rdz cents dn else Ok (g_cen f));
    do i1 <- rd (g_verts f) 0; do p1 <- rdz coords i1;
    do i2 <- rd (g_verts f) 1; do p2 <- rdz coords i2;
    do i3 <- rd (g_verts f) 2; do p3 <- rdz coords i3;
    do r <- (if ((0 <=? up) && (0 <=? dn))%Z then
               if (length (g_verts f) =? 4)%nat
               then do i4 <- rd (g_verts f) 3; do p4 <- rdz coords i4; Ok (reach_inner coord_up coord_dn p1 p2 p3 (Some p4))
               else Ok (reach_inner coord_up coord_dn p1 p2 p3 None)
             else Ok (reach_boundary (if (0 <=? up)%Z then coord_up else coord_dn) coord_dn p1 p2 p3));
    Ok (match r with
        | Some r => Some (mkAttrs r (fdiv (r_up r) (r_up r + r_dn r))
                            (fl1 (fun d => g_area f * d) (fdot (Some (r_u r)) (g_normal f))))
        | None => None
        end).

(** The arrays: dist_up_dn and unit_vec_up_dn have one row per face. *)
Record tables := mkTables { a_dist : list (list R); a_unit : list (list R); a_wt : list fl; a_area : list fl }.
(** AllocateFaces, src/fv/share/tdymesh.c:290-295, and TDyAllocate_RealArray_2D,
    src/tdymemory.c:149-160: rows of two numbers. *)
Definition allocate_tables (n : nat) : tables :=
  mkTables (repeat (repeat 0 2) n) (repeat (repeat 0 2) n) (repeat (Some 0) n) (repeat (Some 0) n).
Definition store3 (row : list R) (v : v3) : outcome (list R) :=
  do row <- wr row 0 (vx v); do row <- wr row 1 (vy v); wr row 2 (vz v).
(** Lines 3652-3673.  What is stored when a number is not finite is not modelled
    ([Err]). *)
Definition store (k : nat) (a : option attrs) (t : tables) : outcome tables :=
  match a with
  | None => Err
  | Some a =>
    do d <- rd (a_dist t) k;
    do d <- wr d 0 (r_up (t_reach a));
    do d <- wr d 1 (r_dn (t_reach a));
    do dist <- wr (a_dist t) k d;
    do u <- rd (a_unit t) k;
    do u <- store3 u (r_u (t_reach a));
    do unit <- wr (a_unit t) k u;
    do wt <- wr (a_wt t) k (t_wt a);
    do area <- wr (a_area t) k (t_area a);
    Ok (mkTables dist unit wt area)
  end.
Definition attrs_of_faces (fs : list gface) (t : tables) : outcome tables :=
  for_ (length fs) (fun k t => do f <- rd fs k; do a <- face_attrs f; store k a t) t.
End Orient.
