(** * C109: areas and centres of the faces of a mesh read from a file *)
From Coq Require Import Reals Lra List ZArith Lia.
From Verif Require Import Prelude Geom SpecGeom SpecFaceGeo SpecCellGeo MeshFaces SpecMeshFaces SpecFaceAttr MeshFacesExamples FaceCentre SpecFaceCentre FaceCentreProofs FaceCentreMesh.
Import ListNotations.
Local Open Scope R_scope.

(** Every side of a local cell gets the mean of its corners as its centre and the sum
    of the areas of its triangles as its area, once and for all however many cells it
    belongs to; no read or write leaves its array.  For a flat convex side this sum is
    the area of the polygon.  C109_meshes says which meshes have
    such tables. *)
Theorem C109_sides : forall nl nf cnv cf fv coords a0, numbered nl nf cnv cf fv coords ->
  exists r, geo_of_faces cnv cf fv coords nl nf a0 = Ok r /\
  length (g_area r) = nf /\ length (g_cent r) = nf /\
  forall c i f ps, (c < nl)%nat -> (i < 6)%nat -> (f < nf)%nat -> side_is cnv cf fv coords c i f ps ->
  exists A m, nth_error (g_area r) f = Some A /\ nth_error (g_cent r) f = Some m /\ mean ps m /\
  (forall p q s, ps = [p; q; s] -> A = triangle p q s) /\
  (forall p q s t, ps = [p; q; s; t] -> A = triangle p q s + triangle p s t) /\
  (forall n, polygon n ps -> A = area n ps /\ 0 < A).
Proof.
  intros nl nf cnv cf fv coords a0 H. destruct (faces_geo nl nf cnv cf fv coords a0 H) as [r [E [_ [L1 [L2 F]]]]].
  exists r. split; [exact E|]. split; [exact L1|]. split; [exact L2|].
  intros c i f ps Hc Hi Hf [S1 [S2 S3]]. destruct (F f Hf) as [[_ [_ [A [m [EA [Em G]]]]]]|[_ [N _]]].
  - destruct (G ps S2) as [EQ M]. exists A, m. repeat (split; [assumption|]).
    split; [intros p q s ->; exact EQ|]. split; [intros p q s t ->; exact EQ|].
    intros n P. destruct (flat_area n ps P) as [X Y]. rewrite EQ, X. split; [reflexivity|exact Y].
  - exfalso. apply N. exists c, i. auto.
Qed.
Print Assumptions C109_sides.

(** For every conforming mesh whose vertices have positions, with the tables that the
    program sets up for it (and face_to_cell handed back, see C92): every side of a local
    cell has the mean of its corners as centre, and as area the sum of the triangles of
    its corners, taken in the order of this side or of the same side of a smaller
    neighbour, which for a flat convex side is the area of the polygon. *)
Theorem C109_meshes : forall nl ng cnv cv nbs coords, conforming nl ng cnv cv nbs ->
  (forall c v, (c < ng)%nat -> In v (firstn (nth c cnv 0%nat) (nth c cv [])) -> exists p, at_ coords v p) ->
  forall a0, exists r g, setup_faces cnv cv nbs nl ng true = Ok r /\
  geo_of_faces cnv (f_cells r) (f_verts r) coords nl (f_num r) a0 = Ok g /\
  length (g_area g) = f_num r /\ length (g_cent g) = f_num r /\
  forall c i, (c < nl)%nat -> (i < nsides cnv c)%nat -> exists f b k l ps A m,
    entry (f_cells r) i c (Z.of_nat f) /\
    ((b = c /\ k = i) \/ ((b < nl)%nat /\ (b < c)%nat /\ common cnv cv b k c i)) /\
    rotation (side cnv cv b k) l /\ located coords l ps /\
    nth_error (g_area g) f = Some A /\ nth_error (g_cent g) f = Some m /\
    (forall qs, located coords (side cnv cv c i) qs -> mean qs m) /\
    ((exists p q s, ps = [p; q; s] /\ A = triangle p q s) \/ (exists p q s t, ps = [p; q; s; t] /\ A = triangle p q s + triangle p s t)) /\
    (forall n, polygon n ps -> A = area n ps /\ 0 < A).
Proof. exact mesh_faces. Qed.
Print Assumptions C109_meshes.

(** Faces that are sides of ghost cells only get no area and stay at the origin. *)
Theorem C109_ghosts_refuted : forall nl nf cnv cf fv coords a0, numbered nl nf cnv cf fv coords ->
  exists r, geo_of_faces cnv cf fv coords nl nf a0 = Ok r /\
  forall f, (f < nf)%nat -> (forall c i, (c < nl)%nat -> (i < 6)%nat -> ~ entry cf i c (Z.of_nat f)) ->
  nth_error (g_area r) f = Some a0 /\ nth_error (g_cent r) f = Some (V3 0 0 0).
Proof.
  intros nl nf cnv cf fv coords a0 H. destruct (faces_geo nl nf cnv cf fv coords a0 H) as [r [E [_ [_ [_ F]]]]].
  exists r. split; [exact E|]. intros f Hf N. destruct (F f Hf) as [[_ [[c [i [Hc [Hi M]]]] _]]|[_ [_ X]]]; [|exact X].
  exfalso. exact (N c i Hc Hi M).
Qed.
Print Assumptions C109_ghosts_refuted.

(** The mean of the corners is where the area balances for triangles and
    parallelograms.  Missing: all other quadrilaterals. *)
Theorem C109_centre_partial :
  (forall a b c m, mean [a; b; c] m -> balanced [a; b; c] m) /\
  (forall a p q m, mean [a; vadd a p; vadd (vadd a p) q; vadd a q] m -> balanced [a; vadd a p; vadd (vadd a p) q; vadd a q] m).
Proof. split; [exact mean_triangle|exact mean_parallelogram]. Qed.
Print Assumptions C109_centre_partial.

(** A flat convex trapezium whose mean of corners is not where its area balances. *)
Theorem C109_centre_refuted : exists ps m, polygon (V3 0 0 1) ps /\ mean ps m /\ ~ balanced ps m.
Proof.
  exists [V3 0 0 0; V3 3 0 0; V3 1 1 0; V3 0 1 0], (V3 1 (1 / 2) 0). split; [|split].
  - split; [unfold unit, dot; cbn; lra|].
    split; [exists 3; split; [lra|unfold cross, vsub, vscale; cbn; f_equal; lra]|].
    split; [exists 1; split; [lra|unfold cross, vsub, vscale; cbn; f_equal; lra]|].
    split; [exists 1; split; [lra|unfold cross, vsub, vscale; cbn; f_equal; lra]|].
    exists 3; split; [lra|unfold cross, vsub, vscale; cbn; f_equal; lra].
  - unfold mean. cbn. lra.
  - intro H. cbn [balanced] in H.
    assert (T1 : triangle (V3 0 0 0) (V3 3 0 0) (V3 1 1 0) = 3 / 2).
    { unfold triangle. f_equal. unfold length3. replace (dot _ _) with (3 * 3) by (unfold dot, cross, vsub; cbn; ring). apply sqrt_square; lra. }
    assert (T2 : triangle (V3 0 0 0) (V3 1 1 0) (V3 0 1 0) = 1 / 2).
    { unfold triangle. f_equal. unfold length3. replace (dot _ _) with (1 * 1) by (unfold dot, cross, vsub; cbn; ring). apply sqrt_square; lra. }
    rewrite T1, T2 in H. unfold third, vscale, vadd in H. cbn in H. injection H as H1 H2 H3. lra.
Qed.
Print Assumptions C109_centre_refuted.

(** The area of a side that is not flat depends on the corner its list starts with. *)
Theorem C109_warped_refuted : exists a b c d,
  triangle a b c + triangle a c d <> triangle b c d + triangle b d a.
Proof.
  exists (V3 0 0 0), (V3 1 0 0), (V3 1 1 1), (V3 0 1 0).
  assert (T1 : triangle (V3 0 0 0) (V3 1 0 0) (V3 1 1 1) = sqrt 2 / 2).
  { unfold triangle. f_equal. unfold length3. f_equal. unfold dot, cross, vsub; cbn; ring. }
  assert (T2 : triangle (V3 0 0 0) (V3 1 1 1) (V3 0 1 0) = sqrt 2 / 2).
  { unfold triangle. f_equal. unfold length3. f_equal. unfold dot, cross, vsub; cbn; ring. }
  assert (T3 : triangle (V3 1 0 0) (V3 1 1 1) (V3 0 1 0) = sqrt 3 / 2).
  { unfold triangle. f_equal. unfold length3. f_equal. unfold dot, cross, vsub; cbn; ring. }
  assert (T4 : triangle (V3 1 0 0) (V3 0 1 0) (V3 0 0 0) = 1 / 2).
  { unfold triangle. f_equal. unfold length3. replace (dot _ _) with (1 * 1) by (unfold dot, cross, vsub; cbn; ring). apply sqrt_square; lra. }
  rewrite T1, T2, T3, T4. pose proof (sqrt_sqrt 2 ltac:(lra)) as S2. pose proof (sqrt_sqrt 3 ltac:(lra)) as S3.
  pose proof (sqrt_pos 2) as P2. pose proof (sqrt_pos 3) as P3. intro H.
  assert (E : 2 * sqrt 2 = sqrt 3 + 1) by lra. assert (Q : (2 * sqrt 2) * (2 * sqrt 2) = (sqrt 3 + 1) * (sqrt 3 + 1)) by (rewrite E; reflexivity).
  assert (sqrt 3 = 2) by lra. rewrite H0 in S3. lra.
Qed.
Print Assumptions C109_warped_refuted.

(** One tetrahedron: its first side has area 1/2 and centre (1/3, 0, 1/3). *)
Example tet_coords := [V3 0 0 0; V3 1 0 0; V3 0 1 0; V3 0 0 1].
Example tet_cf : table := [[0]; [1]; [2]; [3]; [-1]; [-1]]%Z.
Example tet_fv : table := [[0; 1; 0; 0]; [1; 2; 3; 2]; [3; 3; 2; 1]; [-1; -1; -1; -1]]%Z.
Lemma tet_side : forall i l ps, nth_error [[0; 1; 3]; [1; 2; 3]; [0; 3; 2]; [0; 2; 1]]%Z i = Some l -> located tet_coords l ps ->
  side_is [4%nat] tet_cf tet_fv tet_coords 0 i i ps.
Proof.
  intros i l ps E L. destruct i as [|[|[|[|i]]]]; [| | | |destruct i; discriminate E];
  (injection E as <-; split; [eexists; split; reflexivity|]; split;
   [eexists; split; [|split; [exact L|right; split; [reflexivity|exists (-1)%Z; split; [eexists; split; reflexivity|lia]]]];
    intros k x Hk; do 3 (destruct k as [|k]; [injection Hk as <-; eexists; split; reflexivity|]); destruct k; discriminate Hk
   |exists 4%nat; split; [reflexivity|]; split; [cbn; lia|]; inversion L as [|? ? ? ? _ L1]; subst; inversion L1 as [|? ? ? ? _ L2]; subst; inversion L2 as [|? ? ? ? _ L3]; subst; inversion L3; reflexivity]).
Qed.
Lemma tet_numbered : numbered 1 4 [4%nat] tet_cf tet_fv tet_coords.
Proof.
  intros c i Hc Hi. assert (c = 0%nat) by lia. subst c.
  do 4 (destruct i as [|i]; [right; eexists; eexists; split; [|eapply tet_side; [reflexivity|repeat constructor; try lia; reflexivity]]; lia|]).
  destruct i as [|[|i]]; [left; eexists; split; reflexivity|left; eexists; split; reflexivity|lia].
Qed.
Example C109_example : exists r, geo_of_faces [4%nat] tet_cf tet_fv tet_coords 1 4 0 = Ok r /\
  nth_error (g_area r) 0 = Some (1 / 2) /\ nth_error (g_cent r) 0 = Some (V3 (1 / 3) 0 (1 / 3)).
Proof.
  destruct (C109_sides _ _ _ _ _ _ 0 tet_numbered) as [r [E [_ [_ H]]]]. exists r. split; [exact E|].
  destruct (H 0%nat 0%nat 0%nat [V3 0 0 0; V3 1 0 0; V3 0 0 1] ltac:(lia) ltac:(lia) ltac:(lia)) as [A [m [EA [Em [M [T _]]]]]].
  { eapply tet_side; [reflexivity|]. repeat constructor; lia. }
  specialize (T _ _ _ eq_refl). split.
  - rewrite EA. f_equal. rewrite T. unfold triangle. f_equal. unfold length3.
    replace (dot _ _) with (1 * 1) by (unfold dot, cross, vsub; cbn; ring). apply sqrt_square; lra.
  - rewrite Em. f_equal. destruct m as [x y z]. unfold mean in M. cbn in M. f_equal; lra.
Qed.

(** The mesh of C92_example with positions: the centre of the side 5 of the cube, which
    it shares with the pyramid, is (1/2, 1/2, 1). *)
Example mesh_coords := [V3 0 0 0; V3 1 0 0; V3 1 1 0; V3 0 1 0; V3 0 0 1; V3 1 0 1; V3 1 1 1; V3 0 1 1; V3 (1/2) (1/2) 2; V3 2 (1/2) 0; V3 2 (1/2) 1].
Example C109_mesh_example : exists r g f, setup_faces ex_cnv ex_cv ex_nbs 2 3 true = Ok r /\
  geo_of_faces ex_cnv (f_cells r) (f_verts r) mesh_coords 2 (f_num r) 0 = Ok g /\
  entry (f_cells r) 5 0 (Z.of_nat f) /\ nth_error (g_cent g) f = Some (V3 (1 / 2) (1 / 2) 1).
Proof.
  destruct (C109_meshes _ _ _ _ _ mesh_coords ex_conforming) with (a0 := 0) as [r [g [E1 [E2 [_ [_ H]]]]]].
  - intros c v Hc Hv. destruct c as [|[|[|c]]]; [| | |lia]; cbn in Hv;
      repeat (destruct Hv as [<-|Hv]; [eexists; split; [lia|reflexivity]|]); destruct Hv.
  - destruct (H 0%nat 5%nat) as [f [b [k [l [ps [A [m [F [_ [_ [_ [_ [Em [M _]]]]]]]]]]]]]]; [lia|cbn; lia|].
    exists r, g, f. split; [exact E1|]. split; [exact E2|]. split; [exact F|]. rewrite Em. f_equal.
    specialize (M [V3 0 0 1; V3 1 0 1; V3 1 1 1; V3 0 1 1]). destruct M as [M1 [M2 M3]].
    + change (side ex_cnv ex_cv 0 5) with [4; 5; 6; 7]%Z. repeat constructor; lia.
    + destruct m as [x y z]. cbn in M1, M2, M3. f_equal; lra.
Qed.
