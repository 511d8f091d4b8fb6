(** Proofs about the geometry routines. *)
From Coq Require Import Reals Lra Psatz List ZArith Lia.
From Coquelicot Require Import Coquelicot.
From Verif Require Import Prelude Geom SpecGeom.
Import ListNotations.
Local Open Scope R_scope.

(** ** 3x3 inverse *)

Lemma det_mul a b : Determinant3 (mat_mul a b) = Determinant3 a * Determinant3 b.
Proof. destruct a, b. unfold Determinant3, mat_mul; simpl. ring. Qed.

Lemma invertible_det a : invertible a -> Determinant3 a <> 0.
Proof.
  intros [b Hb] H. assert (E : Determinant3 (mat_mul a b) = 1) by (rewrite Hb; unfold Determinant3; simpl; ring).
  rewrite det_mul, H in E. lra.
Qed.

Theorem inverse_correct eps a :
  invertible a ->
  exists b, fst (Inverse3 eps a) = Some b /\ mat_mul a b = mat_id /\ mat_mul b a = mat_id.
Proof.
  intros Hinv. pose proof (invertible_det a Hinv) as Hd. unfold Inverse3. simpl.
  rewrite fdiv_ok by assumption. simpl. eexists; split; [reflexivity|].
  assert (Hid : 1 / Determinant3 a * Determinant3 a = 1) by (field; assumption).
  set (id := 1 / Determinant3 a) in *. clearbody id.
  destruct a as [a0 a1 a2 a3 a4 a5 a6 a7 a8]. unfold Determinant3 in *. simpl in *.
  unfold mat_mul, mat_id; simpl. split; f_equal; try ring; rewrite <- Hid; ring.
Qed.

Theorem inverse_singular eps a : Determinant3 a = 0 -> fst (Inverse3 eps a) = None.
Proof.
  intros H. unfold Inverse3; simpl. rewrite H. unfold fdiv. destruct (Req_EM_T 0 0); [reflexivity|lra].
Qed.

Definition entries (a : m3) : list R := [m0 a; m1 a; m2 a; m3_ a; m4 a; m5 a; m6 a; m7 a; m8 a].

Lemma clean_id eps x : x = 0 \/ eps <= Rabs x -> clean eps x = x.
Proof. intros H. unfold clean. destruct (Rlt_dec (Rabs x) eps); [|reflexivity]. destruct H; lra. Qed.

Theorem inverse_input_kept eps a :
  (forall x, List.In x (entries a) -> x = 0 \/ eps <= Rabs x) -> snd (Inverse3 eps a) = a.
Proof.
  intros H. unfold Inverse3; simpl. destruct a; unfold entries in H; simpl in *.
  rewrite !clean_id by (apply H; tauto). reflexivity.
Qed.

Theorem inverse_input_changed eps : 0 < eps -> exists a, invertible a /\ snd (Inverse3 eps a) <> a.
Proof.
  intros He. exists (M3 (eps / 2) 0 0 0 1 0 0 0 1). split.
  - exists (M3 (2 / eps) 0 0 0 1 0 0 0 1). unfold mat_mul, mat_id; simpl. f_equal; field; lra.
  - unfold Inverse3; simpl. intros E. injection E. intros _ _ _ _ _ _ _ _ E0.
    unfold clean in E0. destruct (Rlt_dec (Rabs (eps / 2)) eps) as [H|H]; [lra|].
    apply H. rewrite Rabs_right; lra.
Qed.

(** ** Vectors *)

Lemma dot_pos a : 0 <= dot a a.
Proof. unfold dot. nra. Qed.

Lemma dot_zero a : dot a a = 0 -> a = V3 0 0 0.
Proof.
  destruct a as [x y z]; unfold dot; simpl. intros H.
  assert (x = 0) by nra. assert (y = 0) by nra. assert (z = 0) by nra. subst; reflexivity.
Qed.

Lemma Norm_ok a : Norm a = Some (length3 a).
Proof. unfold Norm, length3, dot. apply fsqrt_ok. nra. Qed.

Lemma length3_pos a : 0 <= length3 a.
Proof. apply sqrt_pos. Qed.

Lemma length3_sq a : length3 a * length3 a = dot a a.
Proof. apply sqrt_sqrt, dot_pos. Qed.

Lemma length3_zero a : length3 a = 0 -> a = V3 0 0 0.
Proof. intros H. apply dot_zero. rewrite <- length3_sq, H. ring. Qed.

Theorem unit_vector a : a <> V3 0 0 0 ->
  exists u, ConvertToUnitVector a = Some u /\ length3 u = 1 /\ a = vscale (length3 a) u.
Proof.
  intros H. unfold ConvertToUnitVector. rewrite Norm_ok. simpl.
  assert (Hl : length3 a <> 0) by (intro E; apply H, length3_zero, E).
  rewrite !fdiv_ok by assumption. simpl. eexists; split; [reflexivity|].
  pose proof (length3_pos a) as Hp. pose proof (length3_sq a) as Hs. set (l := length3 a) in *. clearbody l. split.
  - unfold length3. rewrite <- sqrt_1. f_equal. unfold dot in *; simpl in *.
    replace (_ + _ + _) with ((vx a * vx a + vy a * vy a + vz a * vz a) * (/ l * / l)) by (unfold Rdiv; ring).
    rewrite <- Hs. field; assumption.
  - destruct a; unfold vscale; simpl. f_equal; field; assumption.
Qed.

Theorem unit_vector_zero : ConvertToUnitVector (V3 0 0 0) = None.
Proof.
  unfold ConvertToUnitVector. rewrite Norm_ok. simpl. unfold length3, dot; simpl.
  replace (0 * 0 + 0 * 0 + 0 * 0) with 0 by ring. rewrite sqrt_0. unfold fdiv.
  destruct (Req_EM_T 0 0); [reflexivity|lra].
Qed.

(** ** Triangles *)

Lemma cross_zero_collinear a b c : NormalToTriangle a b c = V3 0 0 0 -> collinear a b c.
Proof.
  destruct a as [a1 a2 a3], b as [b1 b2 b3], c as [c1 c2 c3].
  unfold NormalToTriangle, CrossProduct, VecJoining; simpl. intros H. injection H as H1 H2 H3.
  set (p := b1 - a1) in *. set (q := b2 - a2) in *. set (r := b3 - a3) in *.
  set (u := c1 - a1) in *. set (v := c2 - a2) in *. set (w := c3 - a3) in *.
  unfold collinear, vscale, vsub; simpl. fold p q r u v w. clearbody p q r u v w.
  destruct (Req_EM_T p 0) as [Hp|Hp].
  - destruct (Req_EM_T q 0) as [Hq|Hq].
    + destruct (Req_EM_T r 0) as [Hr|Hr].
      * exists 1, 0. split; [left; lra|]. subst. f_equal; ring.
      * exists w, r. split; [right; assumption|]. f_equal; lra.
    + exists v, q. split; [right; assumption|]. f_equal; lra.
  - exists u, p. split; [right; assumption|]. f_equal; lra.
Qed.

Lemma collinear_cross_zero a b c : collinear a b c -> NormalToTriangle a b c = V3 0 0 0.
Proof.
  destruct a as [a1 a2 a3], b as [b1 b2 b3], c as [c1 c2 c3].
  intros (s & t & Hst & E). unfold vscale, vsub in E; simpl in E. injection E as E1 E2 E3.
  unfold NormalToTriangle, CrossProduct, VecJoining; simpl.
  set (p := b1 - a1) in *. set (q := b2 - a2) in *. set (r := b3 - a3) in *.
  set (u := c1 - a1) in *. set (v := c2 - a2) in *. set (w := c3 - a3) in *.
  clearbody p q r u v w.
  assert (K : forall x, s * x = 0 -> t * x = 0 -> x = 0).
  { intros x Hs Ht. destruct Hst as [H|H]; [destruct (Rmult_integral _ _ Hs)|destruct (Rmult_integral _ _ Ht)]; lra. }
  f_equal; apply K.
  - replace (s * (q * w - r * v)) with ((s * q) * w - (s * r) * v) by ring. rewrite E2, E3. ring.
  - replace (t * (q * w - r * v)) with (q * (t * w) - r * (t * v)) by ring. rewrite <- E2, <- E3. ring.
  - replace (s * (r * u - p * w)) with ((s * r) * u - (s * p) * w) by ring. rewrite E1, E3. ring.
  - replace (t * (r * u - p * w)) with (r * (t * u) - p * (t * w)) by ring. rewrite <- E1, <- E3. ring.
  - replace (s * (p * v - q * u)) with ((s * p) * v - (s * q) * u) by ring. rewrite E1, E2. ring.
  - replace (t * (p * v - q * u)) with (p * (t * v) - q * (t * u)) by ring. rewrite <- E1, <- E2. ring.
Qed.

Lemma normal_perp a b c :
  dot (NormalToTriangle a b c) (vsub b a) = 0 /\ dot (NormalToTriangle a b c) (vsub c a) = 0.
Proof. unfold dot, NormalToTriangle, CrossProduct, VecJoining, vsub; simpl. split; ring. Qed.

Theorem unit_normal_triangle a b c : ~ collinear a b c ->
  exists n, UnitNormalToTriangle a b c = Some n /\ length3 n = 1 /\
            dot n (vsub b a) = 0 /\ dot n (vsub c a) = 0.
Proof.
  intros H. unfold UnitNormalToTriangle.
  destruct (unit_vector (NormalToTriangle a b c)) as (u & E & L & S).
  { intro E. apply H, cross_zero_collinear, E. }
  exists u. split; [exact E|]. split; [exact L|].
  destruct (normal_perp a b c) as [P1 P2].
  assert (Hl : length3 (NormalToTriangle a b c) <> 0).
  { intro Z. apply H, cross_zero_collinear, length3_zero, Z. }
  set (l := length3 (NormalToTriangle a b c)) in *. clearbody l. rewrite S in P1, P2.
  assert (D : forall v, dot (vscale l u) v = l * dot u v) by (intros; unfold dot, vscale; simpl; ring).
  rewrite D in P1, P2. split.
  - destruct (Rmult_integral _ _ P1); [contradiction|assumption].
  - destruct (Rmult_integral _ _ P2); [contradiction|assumption].
Qed.

Lemma area_ok a b c : TriangleArea a b c = Some (0.5 * length3 (NormalToTriangle a b c)).
Proof. unfold TriangleArea, NormalToTriangle. rewrite Norm_ok. reflexivity. Qed.

(** The area is base times height over two: with [d] the distance vector of [c]
    from the line through [a] and [b]. *)
Theorem triangle_area a b c :
  exists A, TriangleArea a b c = Some A /\ 0 <= A /\ (A = 0 <-> collinear a b c) /\
    (2 * A) ^ 2 = dot (vsub b a) (vsub b a) * dot (vsub c a) (vsub c a) - dot (vsub b a) (vsub c a) ^ 2.
Proof.
  rewrite area_ok. eexists; split; [reflexivity|]. pose proof (length3_pos (NormalToTriangle a b c)) as Hp. split; [lra|]. split.
  - split; intros H.
    + apply cross_zero_collinear, length3_zero. lra.
    + rewrite (collinear_cross_zero _ _ _ H). unfold length3, dot; simpl.
      replace (0 * 0 + 0 * 0 + 0 * 0) with 0 by ring. rewrite sqrt_0. ring.
  - replace ((2 * (0.5 * length3 (NormalToTriangle a b c))) ^ 2)
      with (length3 (NormalToTriangle a b c) * length3 (NormalToTriangle a b c)).
    2:{ replace 0.5 with (1/2) by lra. field. }
    rewrite length3_sq. unfold dot, NormalToTriangle, CrossProduct, VecJoining, vsub; simpl. ring.
Qed.

Lemma normal_translate t a b c : NormalToTriangle (vadd a t) (vadd b t) (vadd c t) = NormalToTriangle a b c.
Proof. unfold NormalToTriangle, CrossProduct, VecJoining, vadd; simpl. f_equal; ring. Qed.

Theorem triangle_area_translate t a b c : TriangleArea (vadd a t) (vadd b t) (vadd c t) = TriangleArea a b c.
Proof. rewrite !area_ok, normal_translate. reflexivity. Qed.

Lemma length3_opp v : length3 (vscale (-1) v) = length3 v.
Proof. unfold length3. f_equal. unfold dot, vscale; simpl. ring. Qed.

Theorem triangle_area_symmetric a b c :
  TriangleArea b a c = TriangleArea a b c /\ TriangleArea a c b = TriangleArea a b c.
Proof.
  rewrite !area_ok. split; do 2 f_equal; rewrite <- (length3_opp (NormalToTriangle a b c)); f_equal;
    unfold NormalToTriangle, CrossProduct, VecJoining, vscale; simpl; f_equal; ring.
Qed.

Lemma centre_translate t a b c d : centre4 (vadd a t) (vadd b t) (vadd c t) (vadd d t) = vadd (centre4 a b c d) t.
Proof. unfold centre4, vadd; simpl. f_equal; field. Qed.

Theorem quad_area a b c d :
  exists A, QuadrilateralArea a b c d = Some A /\ 0 <= A.
Proof.
  unfold QuadrilateralArea. rewrite !area_ok. simpl. eexists; split; [reflexivity|].
  set (x := centre4 a b c d).
  pose proof (length3_pos (NormalToTriangle x a b)). pose proof (length3_pos (NormalToTriangle x b c)).
  pose proof (length3_pos (NormalToTriangle x c d)). pose proof (length3_pos (NormalToTriangle x d a)). lra.
Qed.

Theorem quad_area_translate t a b c d :
  QuadrilateralArea (vadd a t) (vadd b t) (vadd c t) (vadd d t) = QuadrilateralArea a b c d.
Proof. unfold QuadrilateralArea. rewrite centre_translate, !triangle_area_translate. reflexivity. Qed.

(** A parallelogram [a, a+p, a+p+q, a+q] has area |p x q|. *)
Theorem quad_area_parallelogram a p q :
  QuadrilateralArea a (vadd a p) (vadd (vadd a p) q) (vadd a q) = Some (length3 (CrossProduct p q)).
Proof.
  unfold QuadrilateralArea. rewrite !area_ok. simpl. f_equal.
  assert (S : forall k v, 0 <= k -> length3 (vscale k v) = k * length3 v).
  { intros k v Hk. unfold length3. replace (k * sqrt (dot v v)) with (sqrt (k * k) * sqrt (dot v v)) by (rewrite sqrt_square; auto).
    rewrite <- sqrt_mult_alt by nra. f_equal. unfold dot, vscale; simpl. ring. }
  assert (H1 : NormalToTriangle (centre4 a (vadd a p) (vadd (vadd a p) q) (vadd a q)) a (vadd a p) = vscale (1/2) (CrossProduct p q)).
  { unfold NormalToTriangle, CrossProduct, VecJoining, centre4, vadd, vscale; simpl. f_equal; field. }
  assert (H2 : NormalToTriangle (centre4 a (vadd a p) (vadd (vadd a p) q) (vadd a q)) (vadd a p) (vadd (vadd a p) q) = vscale (1/2) (CrossProduct p q)).
  { unfold NormalToTriangle, CrossProduct, VecJoining, centre4, vadd, vscale; simpl. f_equal; field. }
  assert (H3 : NormalToTriangle (centre4 a (vadd a p) (vadd (vadd a p) q) (vadd a q)) (vadd (vadd a p) q) (vadd a q) = vscale (1/2) (CrossProduct p q)).
  { unfold NormalToTriangle, CrossProduct, VecJoining, centre4, vadd, vscale; simpl. f_equal; field. }
  assert (H4 : NormalToTriangle (centre4 a (vadd a p) (vadd (vadd a p) q) (vadd a q)) (vadd a q) a = vscale (1/2) (CrossProduct p q)).
  { unfold NormalToTriangle, CrossProduct, VecJoining, centre4, vadd, vscale; simpl. f_equal; field. }
  rewrite H1, H2, H3, H4, S by lra. lra.
Qed.

Theorem quad_normal_parallelogram a p q :
  CrossProduct p q <> V3 0 0 0 ->
  exists n, NormalToQuadrilateral a (vadd a p) (vadd (vadd a p) q) (vadd a q) = Some n /\
    length3 n = 1 /\ dot n p = 0 /\ dot n q = 0.
Proof.
  intros H. unfold NormalToQuadrilateral, UnitNormalToTriangle.
  assert (H1 : NormalToTriangle (centre4 a (vadd a p) (vadd (vadd a p) q) (vadd a q)) a (vadd a p) = vscale (1/2) (CrossProduct p q)).
  { unfold NormalToTriangle, CrossProduct, VecJoining, centre4, vadd, vscale; simpl. f_equal; field. }
  assert (H2 : NormalToTriangle (centre4 a (vadd a p) (vadd (vadd a p) q) (vadd a q)) (vadd a p) (vadd (vadd a p) q) = vscale (1/2) (CrossProduct p q)).
  { unfold NormalToTriangle, CrossProduct, VecJoining, centre4, vadd, vscale; simpl. f_equal; field. }
  assert (H3 : NormalToTriangle (centre4 a (vadd a p) (vadd (vadd a p) q) (vadd a q)) (vadd (vadd a p) q) (vadd a q) = vscale (1/2) (CrossProduct p q)).
  { unfold NormalToTriangle, CrossProduct, VecJoining, centre4, vadd, vscale; simpl. f_equal; field. }
  assert (H4 : NormalToTriangle (centre4 a (vadd a p) (vadd (vadd a p) q) (vadd a q)) (vadd a q) a = vscale (1/2) (CrossProduct p q)).
  { unfold NormalToTriangle, CrossProduct, VecJoining, centre4, vadd, vscale; simpl. f_equal; field. }
  rewrite H1, H2, H3, H4. clear H1 H2 H3 H4.
  destruct (unit_vector (vscale (1/2) (CrossProduct p q))) as (u & E & L & S).
  { intro Z. apply H. destruct (CrossProduct p q) as [x y z]. unfold vscale in Z; simpl in Z. injection Z as Z1 Z2 Z3.
    f_equal; lra. }
  rewrite E. eexists; split; [reflexivity|].
  assert (Eu : V3 ((vx u + vx u + vx u + vx u) / 4) ((vy u + vy u + vy u + vy u) / 4) ((vz u + vz u + vz u + vz u) / 4) = u).
  { destruct u; simpl; f_equal; field. }
  rewrite Eu. split; [exact L|].
  set (l := length3 (vscale (1/2) (CrossProduct p q))) in *.
  assert (Hl : l <> 0).
  { intro Z. apply length3_zero in Z. apply H. destruct (CrossProduct p q) as [x y z]. unfold vscale in Z; simpl in Z.
    injection Z as Z1 Z2 Z3. f_equal; lra. }
  clearbody l.
  assert (D : forall v, l * dot u v = dot (vscale (1/2) (CrossProduct p q)) v)
    by (intros v; rewrite S; unfold dot, vscale; simpl; ring).
  assert (Dp : l * dot u p = 0) by (rewrite D; unfold dot, vscale, CrossProduct; simpl; ring).
  assert (Dq : l * dot u q = 0) by (rewrite D; unfold dot, vscale, CrossProduct; simpl; ring).
  split; [destruct (Rmult_integral _ _ Dp)|destruct (Rmult_integral _ _ Dq)]; auto; contradiction.
Qed.

(** ** Tetrahedra *)

Theorem volumes_agree a b c d : VolumeofTetrahedron a b c d = ComputeVolumeOfTetrahedron a b c d.
Proof.
  unfold VolumeofTetrahedron, ComputeVolumeOfTetrahedron. f_equal.
  rewrite <- Rabs_Ropp. f_equal. unfold DotProduct, CrossProduct, VecJoining; simpl. ring.
Qed.

Theorem volume_nonneg a b c d :
  0 <= ComputeVolumeOfTetrahedron a b c d /\
  (ComputeVolumeOfTetrahedron a b c d = 0 <-> on_plane (ComputePlaneGeometry a b c) d).
Proof.
  unfold ComputeVolumeOfTetrahedron.
  pose proof (Rabs_pos (DotProduct (CrossProduct (VecJoining a b) (VecJoining a c)) (VecJoining a d))).
  split; [lra|].
  assert (E : DotProduct (CrossProduct (VecJoining a b) (VecJoining a c)) (VecJoining a d)
     = pa (ComputePlaneGeometry a b c) * vx d + pb (ComputePlaneGeometry a b c) * vy d
       + pc (ComputePlaneGeometry a b c) * vz d + pd (ComputePlaneGeometry a b c)).
  { unfold DotProduct, CrossProduct, VecJoining, ComputePlaneGeometry; simpl. ring. }
  unfold on_plane. rewrite <- E. split; intros H0.
  - apply Rabs_eq_0. lra.
  - rewrite H0, Rabs_R0. lra.
Qed.

Theorem volume_translate t a b c d :
  ComputeVolumeOfTetrahedron (vadd a t) (vadd b t) (vadd c t) (vadd d t) = ComputeVolumeOfTetrahedron a b c d.
Proof.
  unfold ComputeVolumeOfTetrahedron. do 2 f_equal.
  unfold DotProduct, CrossProduct, VecJoining, vadd; simpl. ring.
Qed.

(** Exchanging vertices does not change the volume. *)
Theorem volume_symmetric a b c d :
  ComputeVolumeOfTetrahedron b a c d = ComputeVolumeOfTetrahedron a b c d /\
  ComputeVolumeOfTetrahedron a c b d = ComputeVolumeOfTetrahedron a b c d /\
  ComputeVolumeOfTetrahedron a b d c = ComputeVolumeOfTetrahedron a b c d.
Proof.
  unfold ComputeVolumeOfTetrahedron. repeat split; f_equal; rewrite <- Rabs_Ropp; f_equal;
    unfold DotProduct, CrossProduct, VecJoining; simpl; ring.
Qed.

(** ** Lengths *)

Theorem length_ok a b : ComputeLength a b = Some (length3 (vsub a b)).
Proof.
  unfold ComputeLength, length3. rewrite fsqrt_ok.
  - do 2 f_equal. unfold dot, vsub; simpl. ring.
  - pose proof (pow2_ge_0 (vx a - vx b)). pose proof (pow2_ge_0 (vy a - vy b)). pose proof (pow2_ge_0 (vz a - vz b)). lra.
Qed.

(** ** Planes *)

Theorem plane_contains a b c :
  on_plane (ComputePlaneGeometry a b c) a /\ on_plane (ComputePlaneGeometry a b c) b /\
  on_plane (ComputePlaneGeometry a b c) c.
Proof. unfold on_plane, ComputePlaneGeometry; simpl. repeat split; ring. Qed.

Lemma plane_normal a b c : normal_of (ComputePlaneGeometry a b c) = NormalToTriangle a b c.
Proof. unfold normal_of, ComputePlaneGeometry, NormalToTriangle, CrossProduct, VecJoining; simpl. reflexivity. Qed.

Theorem plane_nondegenerate a b c :
  normal_of (ComputePlaneGeometry a b c) <> V3 0 0 0 <-> ~ collinear a b c.
Proof.
  rewrite plane_normal. split; intros H E; apply H; [now apply collinear_cross_zero|now apply cross_zero_collinear].
Qed.

Theorem plane_intercept pl p q :
  dot (normal_of pl) (vsub q p) <> 0 ->
  exists i u, PlaneIntercept pl p q = Some i /\ on_plane pl i /\
    i = vadd p (vscale u (vsub q p)) /\
    (side pl p <= 0 <= side pl q \/ side pl q <= 0 <= side pl p -> 0 <= u <= 1).
Proof.
  intros H. unfold PlaneIntercept.
  set (den := pa pl * (vx p - vx q) + pb pl * (vy p - vy q) + pc pl * (vz p - vz q)).
  assert (Hden : den = - dot (normal_of pl) (vsub q p)) by (unfold den, dot, normal_of, vsub; simpl; ring).
  assert (Hd : den <> 0) by (intro Hz; apply H; lra).
  rewrite fdiv_ok by assumption. simpl.
  set (num := pa pl * vx p + pb pl * vy p + pc pl * vz p + pd pl).
  eexists; exists (num / den). split; [reflexivity|].
  assert (Hs : side pl p - side pl q = den) by (unfold side, den; ring).
  change num with (side pl p). split; [|split].
  - unfold on_plane; simpl.
    replace (pa pl * (vx p + side pl p / den * (vx q - vx p)) + pb pl * (vy p + side pl p / den * (vy q - vy p)) +
      pc pl * (vz p + side pl p / den * (vz q - vz p)) + pd pl)
      with (side pl p - (side pl p / den) * den) by (unfold side, den; ring).
    field. assumption.
  - unfold vadd, vscale, vsub; simpl. reflexivity.
  - intros Hside. rewrite <- Hs in *. set (a := side pl p) in *. set (b := side pl q) in *. clearbody a b.
    destruct Hside as [[Ha Hb]|[Hb Ha]].
    + assert (a - b < 0) by lra. replace (a / (a - b)) with ((- a) / (b - a)) by (field; lra).
      split; [apply Rle_mult_inv_pos; lra|]. apply Rmult_le_reg_r with (b - a); [lra|].
      unfold Rdiv. rewrite Rmult_assoc, Rinv_l by lra. lra.
    + split; [apply Rle_mult_inv_pos; lra|]. apply Rmult_le_reg_r with (a - b); [lra|].
      unfold Rdiv. rewrite Rmult_assoc, Rinv_l by lra. lra.
Qed.

Theorem plane_intercept_parallel pl p q : dot (normal_of pl) (vsub q p) = 0 -> PlaneIntercept pl p q = None.
Proof.
  intros H. unfold PlaneIntercept.
  replace (pa pl * (vx p - vx q) + pb pl * (vy p - vy q) + pc pl * (vz p - vz q)) with 0.
  2:{ unfold dot, normal_of, vsub in H; simpl in H. lra. }
  unfold fdiv. destruct (Req_EM_T 0 0); [reflexivity|lra].
Qed.

Theorem projection pl p :
  normal_of pl <> V3 0 0 0 ->
  exists i k, ProjectPointOnPlane pl p = Some i /\ on_plane pl i /\ vsub p i = vscale k (normal_of pl) /\
    (on_plane pl p -> i = p).
Proof.
  intros H. unfold ProjectPointOnPlane.
  assert (Hd : pa pl * pa pl + pb pl * pb pl + pc pl * pc pl <> 0).
  { intro E. apply H. apply dot_zero. exact E. }
  rewrite fdiv_ok by assumption. simpl.
  set (n := pa pl * pa pl + pb pl * pb pl + pc pl * pc pl) in *.
  eexists; exists ((pa pl * vx p + pb pl * vy p + pc pl * vz p + pd pl) / n). split; [reflexivity|]. split; [|split].
  - unfold on_plane; simpl. set (s := _ / n).
    replace (pa pl * (vx p - pa pl * s) + pb pl * (vy p - pb pl * s) + pc pl * (vz p - pc pl * s) + pd pl)
      with ((pa pl * vx p + pb pl * vy p + pc pl * vz p + pd pl) - s * n) by (unfold n; ring).
    unfold s. field. assumption.
  - unfold vsub, vscale, normal_of; simpl. f_equal; ring.
  - unfold on_plane. intros E. rewrite E. destruct p; simpl. f_equal; field; assumption.
Qed.

(** ** Polar angle *)

Lemma norm_eq x y : 0 < x -> sqrt (x * x + y * y) = x * sqrt (1 + (y / x)²).
Proof.
  intros Hx. replace (x * sqrt (1 + (y / x)²)) with (sqrt (x * x) * sqrt (1 + (y / x)²))
    by (rewrite sqrt_square; lra).
  rewrite <- sqrt_mult_alt by nra. f_equal. unfold Rsqr. field. lra.
Qed.

Lemma norm_eq_neg x y : x < 0 -> sqrt (x * x + y * y) = - x * sqrt (1 + (y / x)²).
Proof.
  intros Hx. replace (x * x) with ((- x) * (- x)) by ring. rewrite norm_eq by lra. do 2 f_equal.
  f_equal. unfold Rsqr. field. lra.
Qed.

Lemma sqrt_1_sq_pos q : 0 < sqrt (1 + q²).
Proof. apply sqrt_lt_R0. pose proof (Rle_0_sqr q). lra. Qed.

Theorem theta_polar x y : x <> 0 \/ y <> 0 ->
  exists t, ComputeTheta x y = Some t /\ 0 <= t < 2 * PI /\
    x = sqrt (x * x + y * y) * cos t /\ y = sqrt (x * x + y * y) * sin t.
Proof.
  intros Hxy. pose proof PI_RGT_0 as Hpi. unfold ComputeTheta.
  destruct (Rlt_dec 0 x) as [Hx|Hx].
  - rewrite fdiv_ok by lra.
    pose proof (sqrt_1_sq_pos (y / x)) as Hs. pose proof (atan_bound (y / x)) as [B1 B2].
    destruct (Rle_dec 0 y) as [Hy|Hy]; simpl; eexists; (split; [reflexivity|]).
    + split; [|split].
      * split; [|lra]. destruct (Rle_lt_or_eq_dec _ _ Hy) as [Hlt|Heq].
        -- apply Rlt_le. rewrite <- atan_0. apply atan_increasing. apply Rdiv_lt_0_compat; assumption.
        -- subst y. unfold Rdiv. rewrite Rmult_0_l, atan_0. lra.
      * rewrite cos_atan, norm_eq by assumption. field. lra.
      * rewrite sin_atan, norm_eq by assumption. field. lra.
    + assert (atan (y / x) < 0).
      { rewrite <- atan_0. apply atan_increasing. replace 0 with (0 / x) by (field; lra).
        apply Rmult_lt_compat_r; [now apply Rinv_0_lt_compat|lra]. }
      split; [|split].
      * lra.
      * rewrite cos_plus, cos_2PI, sin_2PI, cos_atan, norm_eq by assumption. field. lra.
      * rewrite sin_plus, cos_2PI, sin_2PI, sin_atan, norm_eq by assumption. field. lra.
  - destruct (Req_EM_T x 0) as [Hx0|Hx0].
    + subst x. destruct Hxy as [Hxy|Hy0]; [lra|].
      destruct (Rlt_dec 0 y) as [Hy|Hy].
      * exists (0.5 * PI). split; [reflexivity|]. replace (0.5 * PI) with (PI / 2) by lra.
        rewrite cos_PI2, sin_PI2. replace (0 * 0 + y * y) with (y * y) by ring. rewrite sqrt_square by lra. lra.
      * destruct (Req_EM_T y 0); [lra|]. exists (1.5 * PI). split; [reflexivity|].
        replace (1.5 * PI) with (3 * (PI / 2)) by lra. rewrite cos_3PI2, sin_3PI2.
        replace (0 * 0 + y * y) with ((- y) * (- y)) by ring. rewrite sqrt_square by lra. lra.
    + assert (Hneg : x < 0) by lra. rewrite fdiv_ok by assumption. simpl.
      pose proof (sqrt_1_sq_pos (y / x)) as Hs. pose proof (atan_bound (y / x)) as [B1 B2].
      eexists; split; [reflexivity|]. split; [lra|]. split.
      * rewrite neg_cos, cos_atan, norm_eq_neg by assumption. field. lra.
      * rewrite neg_sin, sin_atan, norm_eq_neg by assumption. field. lra.
Qed.

(** ** Index lookup *)

Lemma find_from_spec l v : forall i, (0 <= i)%Z ->
  (exists k, nth_error l k = Some v /\ (forall j, (j < k)%nat -> nth_error l j <> Some v) /\
             find_from i l v = (i + Z.of_nat k)%Z) \/
  (~ List.In v l /\ find_from i l v = (-1)%Z).
Proof.
  induction l as [|x l IH]; intros i Hi; simpl.
  - right. split; [intros []|reflexivity].
  - destruct (Z.eqb_spec x v) as [->|Hne].
    + left. exists 0%nat. split; [reflexivity|]. split; [intros j Hj; lia|lia].
    + destruct (IH (i + 1)%Z ltac:(lia)) as [(k & Hk & Hmin & E)|[Hni E]].
      * left. exists (S k). split; [exact Hk|]. split; [|rewrite E; lia].
        intros [|j] Hj; simpl; [congruence|]. apply Hmin. lia.
      * right. split; [intros [?|?]; contradiction|exact E].
Qed.

Theorem index_found l v : List.In v l ->
  exists k, ReturnIndexInList l v = Z.of_nat k /\ nth_error l k = Some v /\
            forall j, (j < k)%nat -> nth_error l j <> Some v.
Proof.
  intros H. destruct (find_from_spec l v 0 ltac:(lia)) as [(k & Hk & Hmin & E)|[Hni _]]; [|contradiction].
  exists k. unfold ReturnIndexInList. rewrite E. destruct (Z.eqb_spec (0 + Z.of_nat k) (-1)); [lia|].
  split; [lia|]. auto.
Qed.

Theorem index_not_found l v : ~ List.In v l -> ReturnIndexInList l v = 76%Z.
Proof.
  intros H. destruct (find_from_spec l v 0 ltac:(lia)) as [(k & Hk & _ & E)|[_ E]].
  - exfalso. apply H. eapply nth_error_In; eassumption.
  - unfold ReturnIndexInList. rewrite E. reflexivity.
Qed.
