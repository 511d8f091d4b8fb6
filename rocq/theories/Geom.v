(** Model of the geometry routines of src/tdyutils.c. *)
From Coq Require Import Reals List ZArith.
From Verif Require Import Prelude.
Import ListNotations.
Local Open Scope R_scope.

(** PetscReal[3]. *)
Record v3 := V3 { vx : R; vy : R; vz : R }.

(** TDyComputeLength with dim = 3, src/tdyutils.c:239-248 (pow(x,2.) is x^2, pow(s,0.5) the square root). *)
Definition ComputeLength (v1 v2 : v3) : fl :=
  fsqrt ((vx v1 - vx v2) ^ 2 + (vy v1 - vy v2) ^ 2 + (vz v1 - vz v2) ^ 2).

(** TDyCrossProduct, src/tdyutils.c:251-261. *)
Definition CrossProduct (a b : v3) : v3 :=
  V3 (vy a * vz b - vz a * vy b) (vz a * vx b - vx a * vz b) (vx a * vy b - vy a * vx b).

(** TDyDotProduct, src/tdyutils.c:264-275. *)
Definition DotProduct (a b : v3) : R := vx a * vx b + vy a * vy b + vz a * vz b.

(** Norm, src/tdyutils.c:278-291. *)
Definition Norm (a : v3) : fl := fsqrt (vx a * vx a + vy a * vy a + vz a * vz a).

(** ConvertToUnitVector, src/tdyutils.c:294-307: each component divided by the norm. *)
Definition ConvertToUnitVector (a : v3) : option v3 :=
  fbind (Norm a) (fun n =>
  fbind (fdiv (vx a) n) (fun x => fbind (fdiv (vy a) n) (fun y => fbind (fdiv (vz a) n) (fun z =>
  Some (V3 x y z))))).

(** TDyCreateVecJoiningTwoVertices, src/tdyutils.c:310-319. *)
Definition VecJoining (from to : v3) : v3 := V3 (vx to - vx from) (vy to - vy from) (vz to - vz from).

(** TDyTriangleArea, src/tdyutils.c:322-342. *)
Definition TriangleArea (n1 n2 n3 : v3) : fl :=
  fl1 (fun n => 0.5 * n) (Norm (CrossProduct (VecJoining n1 n2) (VecJoining n1 n3))).

(** The centre of four nodes, src/tdyutils.c:353-355 and 423-425. *)
Definition centre4 (a b c d : v3) : v3 :=
  V3 ((vx a + vx b + vx c + vx d) / 4) ((vy a + vy b + vy c + vy d) / 4) ((vz a + vz b + vz c + vz d) / 4).

(** TDyQuadrilateralArea, src/tdyutils.c:345-367. *)
Definition QuadrilateralArea (n1 n2 n3 n4 : v3) : fl :=
  let c := centre4 n1 n2 n3 n4 in
  flet a1 := TriangleArea c n1 n2;
  flet a2 := TriangleArea c n2 n3;
  flet a3 := TriangleArea c n3 n4;
  flet a4 := TriangleArea c n4 n1;
  Some (a1 + a2 + a3 + a4).

(** TDyUnitNormalVectorJoiningTwoVertices, src/tdyutils.c:370-380. *)
Definition UnitNormalVectorJoining (n1 n2 : v3) : option v3 := ConvertToUnitVector (VecJoining n1 n2).

(** TDyNormalToTriangle, src/tdyutils.c:383-397. *)
Definition NormalToTriangle (n1 n2 n3 : v3) : v3 := CrossProduct (VecJoining n1 n2) (VecJoining n1 n3).

(** TDyUnitNormalToTriangle, src/tdyutils.c:400-411. *)
Definition UnitNormalToTriangle (n1 n2 n3 : v3) : option v3 := ConvertToUnitVector (NormalToTriangle n1 n2 n3).

(** TDyNormalToQuadrilateral, src/tdyutils.c:414-439: the average of four unit normals. *)
Definition NormalToQuadrilateral (n1 n2 n3 n4 : v3) : option v3 :=
  let c := centre4 n1 n2 n3 n4 in
  match UnitNormalToTriangle c n1 n2, UnitNormalToTriangle c n2 n3,
        UnitNormalToTriangle c n3 n4, UnitNormalToTriangle c n4 n1 with
  | Some a, Some b, Some d, Some e =>
      Some (V3 ((vx a + vx b + vx d + vx e) / 4) ((vy a + vy b + vy d + vy e) / 4) ((vz a + vz b + vz d + vz e) / 4))
  | _, _, _, _ => None
  end.

(** TDyComputeVolumeOfTetrahedron, src/tdyutils.c:442-462. *)
Definition ComputeVolumeOfTetrahedron (n1 n2 n3 n4 : v3) : R :=
  Rabs (DotProduct (CrossProduct (VecJoining n1 n2) (VecJoining n1 n3)) (VecJoining n1 n4)) / 6.

(** VolumeofTetrahedron, src/tdyutils.c:786-807. *)
Definition VolumeofTetrahedron (p1 p2 p3 p4 : v3) : R :=
  let sub (a b : v3) := V3 (vx a - vx b) (vy a - vy b) (vz a - vz b) in
  Rabs (DotProduct (sub p1 p4) (CrossProduct (sub p2 p4) (sub p3 p4))) / 6.

(** ComputeTheta, src/tdyutils.c:663-679. *)
Definition ComputeTheta (x y : R) : fl :=
  if Rlt_dec 0 x then
    if Rle_dec 0 y then fl1 atan (fdiv y x) else fl1 (fun q => atan q + 2 * PI) (fdiv y x)
  else if Req_EM_T x 0 then
    Some (if Rlt_dec 0 y then 0.5 * PI else if Req_EM_T y 0 then 0 else 1.5 * PI)
  else fl1 (fun q => atan q + PI) (fdiv y x).

(** A 3x3 matrix PetscReal[9], row by row. *)
Record m3 := M3 { m0 : R; m1 : R; m2 : R; m3_ : R; m4 : R; m5 : R; m6 : R; m7 : R; m8 : R }.

(** ComputeDeterminantOf3by3Matrix, src/tdyutils.c:683-690. *)
Definition Determinant3 (a : m3) : R :=
  m0 a * (m4 a * m8 a - m5 a * m7 a) - m1 a * (m3_ a * m8 a - m5 a * m6 a) + m2 a * (m3_ a * m7 a - m4 a * m6 a).

(** ComputeInverseOf3by3Matrix, src/tdyutils.c:694-718: (inv_a, a afterwards).
    [eps] is PETSC_MACHINE_EPSILON, a positive constant of the build; the final
    loop overwrites entries of the *argument*. *)
Definition clean (eps x : R) : R := if Rlt_dec (Rabs x) eps then 0 else x.
Definition Inverse3 (eps : R) (a : m3) : option m3 * m3 :=
  let det := Determinant3 a in
  (fbind (fdiv 1 det) (fun id =>
     Some (M3 (id * (m4 a * m8 a - m7 a * m5 a))
              (- id * (m1 a * m8 a - m7 a * m2 a))
              (id * (m1 a * m5 a - m4 a * m2 a))
              (- id * (m3_ a * m8 a - m6 a * m5 a))
              (id * (m0 a * m8 a - m6 a * m2 a))
              (- id * (m0 a * m5 a - m3_ a * m2 a))
              (id * (m3_ a * m7 a - m6 a * m4 a))
              (- id * (m0 a * m7 a - m6 a * m1 a))
              (id * (m0 a * m4 a - m3_ a * m1 a)))),
   M3 (clean eps (m0 a)) (clean eps (m1 a)) (clean eps (m2 a))
      (clean eps (m3_ a)) (clean eps (m4 a)) (clean eps (m5 a))
      (clean eps (m6 a)) (clean eps (m7 a)) (clean eps (m8 a))).

(** plane[4]. *)
Record plane := Plane { pa : R; pb : R; pc : R; pd : R }.

(** ComputePlaneGeometry, src/tdyutils.c:720-751. *)
Definition ComputePlaneGeometry (p1 p2 p3 : v3) : plane :=
  let x12 := vx p2 - vx p1 in let y12 := vy p2 - vy p1 in let z12 := vz p2 - vz p1 in
  let x13 := vx p3 - vx p1 in let y13 := vy p3 - vy p1 in let z13 := vz p3 - vz p1 in
  let a := y12 * z13 - z12 * y13 in
  let b := z12 * x13 - x12 * z13 in
  let c := x12 * y13 - y12 * x13 in
  Plane a b c (- 1 * (a * vx p1 + b * vy p1 + c * vz p1)).

(** GeometryGetPlaneIntercept, src/tdyutils.c:753-768. *)
Definition PlaneIntercept (pl : plane) (p1 p2 : v3) : option v3 :=
  fbind (fdiv (pa pl * vx p1 + pb pl * vy p1 + pc pl * vz p1 + pd pl)
              (pa pl * (vx p1 - vx p2) + pb pl * (vy p1 - vy p2) + pc pl * (vz p1 - vz p2))) (fun u =>
  Some (V3 (vx p1 + u * (vx p2 - vx p1)) (vy p1 + u * (vy p2 - vy p1)) (vz p1 + u * (vz p2 - vz p1)))).

(** GeometryProjectPointOnPlane, src/tdyutils.c:770-783. *)
Definition ProjectPointOnPlane (pl : plane) (p : v3) : option v3 :=
  fbind (fdiv (pa pl * vx p + pb pl * vy p + pc pl * vz p + pd pl)
              (pa pl * pa pl + pb pl * pb pl + pc pl * pc pl)) (fun s =>
  Some (V3 (vx p - pa pl * s) (vy p - pb pl * s) (vz p - pc pl * s))).

(** TDyReturnIndexInList, src/tdyutils.c:465-482.  SETERRQ returns the error
    code PETSC_ERR_LIB = 76, which is the function's result type. *)
Fixpoint find_from (i : Z) (l : list Z) (v : Z) : Z :=
  match l with
  | [] => -1
  | x :: l => if Z.eqb x v then i else find_from (i + 1) l v
  end%Z.
Definition ReturnIndexInList (l : list Z) (v : Z) : Z :=
  let idx := find_from 0 l v in if Z.eqb idx (-1) then 76%Z else idx.
