(** C08-C11: 3x3 inverse, plane geometry, polar angle, index lookup. *)
From Coq Require Import Reals Lra List ZArith Lia.
From Verif Require Import Prelude Geom SpecGeom GeomProofs FaceGeo SpecFaceGeo FaceGeoProofs.
Import ListNotations.
Local Open Scope R_scope.

(** ** C08 *)

(** [fst]: the computed inverse; [snd]: the caller's matrix afterwards. *)
Theorem C08_inverse : forall eps a,
  invertible a ->
  exists b, fst (Inverse3 eps a) = Some b /\ mat_mul a b = mat_id /\ mat_mul b a = mat_id.
Proof. exact inverse_correct. Qed.
Print Assumptions C08_inverse.

(** Missing: matrices with a non-zero entry below the machine epsilon. *)
Theorem C08_input_unchanged_partial : forall eps a,
  (forall x, List.In x (entries a) -> x = 0 \/ eps <= Rabs x) -> snd (Inverse3 eps a) = a.
Proof. exact inverse_input_kept. Qed.
Print Assumptions C08_input_unchanged_partial.

(** Whatever the positive machine epsilon, some invertible matrix is overwritten. *)
Theorem C08_input_unchanged_refuted : forall eps, 0 < eps ->
  exists a, invertible a /\ snd (Inverse3 eps a) <> a.
Proof. exact inverse_input_changed. Qed.
Print Assumptions C08_input_unchanged_refuted.

Example C08_hypotheses_met : invertible (M3 2 1 0 0 1 3 1 0 1).
Proof.
  exists (M3 (1/5) (-1/5) (3/5) (3/5) (2/5) (-6/5) (-1/5) (1/5) (2/5)).
  unfold mat_mul, mat_id; simpl. f_equal; field.
Qed.

(** ** C09 *)

Theorem C09_plane_through_points : forall a b c,
  (on_plane (ComputePlaneGeometry a b c) a /\ on_plane (ComputePlaneGeometry a b c) b /\
   on_plane (ComputePlaneGeometry a b c) c) /\
  (normal_of (ComputePlaneGeometry a b c) <> V3 0 0 0 <-> ~ collinear a b c).
Proof. intros a b c. split; [exact (plane_contains a b c)|exact (plane_nondegenerate a b c)]. Qed.
Print Assumptions C09_plane_through_points.

Theorem C09_intercept : forall pl p q,
  dot (normal_of pl) (vsub q p) <> 0 ->
  exists i u, PlaneIntercept pl p q = Some i /\ on_plane pl i /\
    i = vadd p (vscale u (vsub q p)) /\
    (side pl p <= 0 <= side pl q \/ side pl q <= 0 <= side pl p -> 0 <= u <= 1).
Proof. exact plane_intercept. Qed.
Print Assumptions C09_intercept.

(** A segment parallel to the plane gives no finite intercept. *)
Theorem C09_intercept_parallel : forall pl p q,
  dot (normal_of pl) (vsub q p) = 0 -> PlaneIntercept pl p q = None.
Proof. exact plane_intercept_parallel. Qed.
Print Assumptions C09_intercept_parallel.

Theorem C09_projection : forall pl p,
  normal_of pl <> V3 0 0 0 ->
  exists i k, ProjectPointOnPlane pl p = Some i /\ on_plane pl i /\ vsub p i = vscale k (normal_of pl) /\
    (on_plane pl p -> i = p).
Proof. exact projection. Qed.
Print Assumptions C09_projection.

Theorem C09_unit_normal_triangle : forall a b c, ~ collinear a b c ->
  exists n, UnitNormalToTriangle a b c = Some n /\ length3 n = 1 /\
            dot n (vsub b a) = 0 /\ dot n (vsub c a) = 0.
Proof. exact unit_normal_triangle. Qed.
Print Assumptions C09_unit_normal_triangle.

(** Flat convex quadrilaterals, run through counter-clockwise as seen from where [n]
    points to: the result is [n] itself. *)
Theorem C09_normal_quadrilateral : forall n a b c d,
  polygon n [a; b; c; d] -> NormalToQuadrilateral a b c d = Some n.
Proof. exact quad_normal. Qed.
Print Assumptions C09_normal_quadrilateral.

Example C09_trapezium : polygon (V3 0 0 1) [V3 0 0 0; V3 3 0 0; V3 2 1 0; V3 1 1 0].
Proof.
  split; [unfold unit, dot; cbn; ring|].
  split; [exists 3|split; [exists 1|split; [exists 1|exists 3]]]; (split; [lra|]); unfold cross, vsub, vscale; cbn; f_equal; ring.
Qed.

Theorem C09_normal_parallelogram : forall a p q,
  CrossProduct p q <> V3 0 0 0 ->
  exists n, NormalToQuadrilateral a (vadd a p) (vadd (vadd a p) q) (vadd a q) = Some n /\
    length3 n = 1 /\ dot n p = 0 /\ dot n q = 0.
Proof. exact quad_normal_parallelogram. Qed.
Print Assumptions C09_normal_parallelogram.

Theorem C09_unit_vector : forall v, v <> V3 0 0 0 ->
  exists u, ConvertToUnitVector v = Some u /\ length3 u = 1 /\ v = vscale (length3 v) u.
Proof. exact unit_vector. Qed.
Print Assumptions C09_unit_vector.

Theorem C09_triangle_area : forall a b c,
  exists A, TriangleArea a b c = Some A /\ 0 <= A /\ (A = 0 <-> collinear a b c) /\
    (2 * A) ^ 2 = dot (vsub b a) (vsub b a) * dot (vsub c a) (vsub c a) - dot (vsub b a) (vsub c a) ^ 2.
Proof. exact triangle_area. Qed.
Print Assumptions C09_triangle_area.

Theorem C09_area_invariant : forall t a b c d,
  TriangleArea (vadd a t) (vadd b t) (vadd c t) = TriangleArea a b c /\
  TriangleArea b a c = TriangleArea a b c /\ TriangleArea a c b = TriangleArea a b c /\
  QuadrilateralArea (vadd a t) (vadd b t) (vadd c t) (vadd d t) = QuadrilateralArea a b c d.
Proof.
  intros t a b c d. split; [exact (triangle_area_translate t a b c)|].
  split; [exact (proj1 (triangle_area_symmetric a b c))|].
  split; [exact (proj2 (triangle_area_symmetric a b c))|exact (quad_area_translate t a b c d)].
Qed.
Print Assumptions C09_area_invariant.

Theorem C09_quadrilateral_area : forall a b c d,
  exists A, QuadrilateralArea a b c d = Some A /\ 0 <= A.
Proof. exact quad_area. Qed.
Print Assumptions C09_quadrilateral_area.

Theorem C09_parallelogram_area : forall a p q,
  QuadrilateralArea a (vadd a p) (vadd (vadd a p) q) (vadd a q) = Some (length3 (CrossProduct p q)).
Proof. exact quad_area_parallelogram. Qed.
Print Assumptions C09_parallelogram_area.

Theorem C09_tetrahedron_volume : forall a b c d,
  0 <= ComputeVolumeOfTetrahedron a b c d /\
  (ComputeVolumeOfTetrahedron a b c d = 0 <-> on_plane (ComputePlaneGeometry a b c) d).
Proof. exact volume_nonneg. Qed.
Print Assumptions C09_tetrahedron_volume.

Theorem C09_volume_invariant : forall t a b c d,
  ComputeVolumeOfTetrahedron (vadd a t) (vadd b t) (vadd c t) (vadd d t) = ComputeVolumeOfTetrahedron a b c d /\
  ComputeVolumeOfTetrahedron b a c d = ComputeVolumeOfTetrahedron a b c d /\
  ComputeVolumeOfTetrahedron a c b d = ComputeVolumeOfTetrahedron a b c d /\
  ComputeVolumeOfTetrahedron a b d c = ComputeVolumeOfTetrahedron a b c d.
Proof. intros t a b c d. split; [exact (volume_translate t a b c d)|exact (volume_symmetric a b c d)]. Qed.
Print Assumptions C09_volume_invariant.

Theorem C09_volumes_agree : forall a b c d,
  VolumeofTetrahedron a b c d = ComputeVolumeOfTetrahedron a b c d.
Proof. exact volumes_agree. Qed.
Print Assumptions C09_volumes_agree.

(** The unit tetrahedron has volume 1/6 (pins the scale). *)
Example C09_unit_tetrahedron :
  ComputeVolumeOfTetrahedron (V3 0 0 0) (V3 1 0 0) (V3 0 1 0) (V3 0 0 1) = 1 / 6.
Proof.
  unfold ComputeVolumeOfTetrahedron, DotProduct, CrossProduct, VecJoining; simpl.
  replace (_ + _ + _) with 1 by ring. rewrite Rabs_R1. reflexivity.
Qed.

Example C09_hypotheses_met : ~ collinear (V3 0 0 0) (V3 1 0 0) (V3 0 1 0).
Proof.
  intros (s & t & H & E). unfold vscale, vsub in E; simpl in E. injection E as E1 E2 E3. destruct H; lra.
Qed.

(** ** C10 *)

Theorem C10_polar_angle : forall x y, x <> 0 \/ y <> 0 ->
  exists t, ComputeTheta x y = Some t /\ 0 <= t < 2 * PI /\
    x = sqrt (x * x + y * y) * cos t /\ y = sqrt (x * x + y * y) * sin t.
Proof. exact theta_polar. Qed.
Print Assumptions C10_polar_angle.

Example C10_hypotheses_met : -1 <> 0 \/ -2 <> 0.
Proof. left; lra. Qed.

(** ** C11 *)

Theorem C11_found : forall l v, List.In v l ->
  exists k, ReturnIndexInList l v = Z.of_nat k /\ nth_error l k = Some v /\
            forall j, (j < k)%nat -> nth_error l j <> Some v.
Proof. exact index_found. Qed.
Print Assumptions C11_found.

(** A missing value is reported by a position outside the list only if the list
    has at most 76 elements. *)
Theorem C11_not_found_partial : forall l v, ~ List.In v l -> (length l <= 76)%nat ->
  forall k, ReturnIndexInList l v = Z.of_nat k -> nth_error l k = None.
Proof.
  intros l v H Hl k E. rewrite (index_not_found l v H) in E. apply nth_error_None. lia.
Qed.
Print Assumptions C11_not_found_partial.

(** With 77 elements, a missing value gives a position in the list. *)
Theorem C11_not_found_refuted : exists l v k,
  ~ List.In v l /\ ReturnIndexInList l v = Z.of_nat k /\ (k < length l)%nat.
Proof.
  exists (repeat 0%Z 77), 1%Z, 76%nat. split.
  - intros H. apply repeat_spec in H. discriminate.
  - split; [reflexivity|simpl; lia].
Qed.
Print Assumptions C11_not_found_refuted.

Example C11_hypotheses_met : List.In 5%Z [3; 5; 7; 5]%Z /\ ~ List.In 4%Z [3; 5; 7; 5]%Z.
Proof. simpl. lia. Qed.
