(** C73: the sub-cells of the multi-point scheme and their G matrices.
    C74: linear pressures have exact multi-point fluxes.
    C75: the two-point G matrices. *)
From Coq Require Import Reals List Bool Arith ZArith Lia Lra Permutation.
From Verif Require Import Prelude Arrays SpecFvtpf Geom SpecGeom Mpfao SpecMpfao MpfaoProofs Subcell SpecSubcell SubcellProofs SubcellStoreProofs SubcellMoreProofs SubcellExamples.
Import ListNotations.
Local Open Scope R_scope.

(** The three faces of a sub-cell are the faces of the vertex that belong to the cell. *)
Theorem C73_faces : forall g icell iv s, SetupSubcell g icell iv = Ok s ->
  exists f0 f1 f2 l, s_faces s = (f0, f1, f2) /\ nth_error (g_vfaces g) iv = Some l /\
    Permutation [f0; f1; f2] (filter (touches g icell) l).
Proof. exact faces_proof. Qed.

(** The nu vectors are dual to the vectors from the cell centre to the face centres, and T
    is the size of their common factor. *)
Theorem C73_dual_basis : forall g icell iv s, SetupSubcell g icell iv = Ok s ->
  forall f0 f1 f2 v0 v1 v2 cen x0 x1 x2, s_faces s = (f0, f1, f2) -> s_nu s = (v0, v1, v2) ->
    nth_error (g_cc g) icell = Some cen ->
    nth_error (g_fc g) f0 = Some x0 -> nth_error (g_fc g) f1 = Some x1 -> nth_error (g_fc g) f2 = Some x2 ->
    exists d, dual v0 v1 v2 (vsub x0 cen) (vsub x1 cen) (vsub x2 cen) d /\ s_T s = Rabs d.
Proof. exact dual_proof. Qed.

(** Where the plane through the face centres passes between the vertex and the cell centre,
    the factor is negative whatever the order in which the mesh lists the faces; T is
    positive. *)
Theorem C73_oriented : forall g icell iv s, SetupSubcell g icell iv = Ok s ->
  forall f0 f1 f2 v0 v1 v2 cen vtx x0 x1 x2, s_faces s = (f0, f1, f2) -> s_nu s = (v0, v1, v2) ->
    nth_error (g_cc g) icell = Some cen -> nth_error (g_vx g) iv = Some vtx ->
    nth_error (g_fc g) f0 = Some x0 -> nth_error (g_fc g) f1 = Some x1 -> nth_error (g_fc g) f2 = Some x2 ->
    between cen vtx x0 x1 x2 ->
    0 < s_T s /\ dual v0 v1 v2 (vsub x0 cen) (vsub x1 cen) (vsub x2 cen) (- s_T s).
Proof. exact oriented_proof. Qed.
(** It does in every hexahedron that is a parallelepiped … *)
Theorem C73_parallelepiped : forall v e1 e2 e3, det3 e1 e2 e3 <> 0 ->
  between (vadd v (vscale (1/2) (vadd e1 (vadd e2 e3)))) v
    (vadd v (vscale (1/2) (vadd e1 e2))) (vadd v (vscale (1/2) (vadd e2 e3))) (vadd v (vscale (1/2) (vadd e1 e3))).
Proof. exact parallelepiped_ok. Qed.
(** … and in every wedge that is a prism. *)
Theorem C73_prism : forall v e1 e2 e3, det3 e1 e2 e3 <> 0 ->
  between (vadd v (vadd (vscale (1/3) (vadd e1 e2)) (vscale (1/2) e3))) v
    (vadd v (vscale (1/2) (vadd e1 e3))) (vadd v (vscale (1/2) (vadd e2 e3))) (vadd v (vscale (1/3) (vadd e1 e2))).
Proof. exact prism_ok. Qed.
(** In a strongly distorted cell it need not: then the sub-cell's G matrix has the wrong sign. *)
Theorem C73_distorted_refuted : exists g s cen vtx x0 x1 x2 K n,
  SetupSubcell g 0 0 = Ok s /\ s_faces s = (0, 1, 2)%nat /\
  nth_error (g_cc g) 0 = Some cen /\ nth_error (g_vx g) 0 = Some vtx /\
  nth_error (g_fc g) 0 = Some x0 /\ nth_error (g_fc g) 1 = Some x1 /\ nth_error (g_fc g) 2 = Some x2 /\
  seen cen x0 x1 x2 <> 0 /\
  exists g0 g1 g2, row_G K s n 1 = Some (g0, g1, g2) /\
    forall p0 gr, g0 * (linear p0 gr cen - linear p0 gr x0) + g1 * (linear p0 gr cen - linear p0 gr x1) +
      g2 * (linear p0 gr cen - linear p0 gr x2) = - dot n (mat_vec K gr).
Proof. exact distorted_proof. Qed.

(** The flux computed inside a sub-cell is exact for linear pressures, for every tensor. *)
Theorem C73_gradient : forall g icell iv s, SetupSubcell g icell iv = Ok s ->
  forall f0 f1 f2 cen vtx x0 x1 x2, s_faces s = (f0, f1, f2) ->
    nth_error (g_cc g) icell = Some cen -> nth_error (g_vx g) iv = Some vtx ->
    nth_error (g_fc g) f0 = Some x0 -> nth_error (g_fc g) f1 = Some x1 -> nth_error (g_fc g) f2 = Some x2 ->
    between cen vtx x0 x1 x2 ->
    forall K n area, exists g0 g1 g2, row_G K s n area = Some (g0, g1, g2) /\
      forall p0 gr, g0 * (linear p0 gr cen - linear p0 gr x0) + g1 * (linear p0 gr cen - linear p0 gr x1) +
        g2 * (linear p0 gr cen - linear p0 gr x2) = area * dot n (mat_vec K gr).
Proof. exact gradient_proof. Qed.

(** The sub-faces of a face share its area equally. *)
Theorem C73_subface_areas : forall g f a vs, nth_error (g_fa g) f = Some a -> nth_error (g_fverts g) f = Some vs -> vs <> [] ->
  exists r, subface_area g f = Ok (Some r) /\ INR (length vs) * r = a.
Proof. exact subface_proof. Qed.

(** Every sub-cell is stored in its place, behind the sub-cells of the cells before. *)
Theorem C73_setup : forall g cverts n st,
  (forall vs, In vs cverts -> length vs = n) ->
  (length cverts * n <= length (st_sub st))%nat -> (3 * (length cverts * n) <= length (st_continuity st))%nat ->
  (forall i vs iv, nth_error cverts i = Some vs -> In iv vs -> exists s, SetupSubcell g i iv = Ok s) ->
  exists st', SetupSubcells g n cverts st = Ok st' /\
    forall i vs j iv s, nth_error cverts i = Some vs -> nth_error vs j = Some iv -> SetupSubcell g i iv = Ok s ->
      nth_error (st_sub st') (i * n + j) = Some (Some s).
Proof. exact setup_proof. Qed.
(** The centroids of the sub-faces end up in the array variable_continuity_coordinates;
    the array that is read back as face_centroid keeps its zeros. *)
Theorem C73_centroid_refuted : forall g cverts n st st',
  SetupSubcells g n cverts st = Ok st' -> forall id i, ith_centroid st' id i = ith_centroid st id i.
Proof. exact centroid_proof. Qed.
(** A vertex of a cell with other than three faces (the apex of a pyramid) is not refused. *)
Theorem C73_three_faces_refuted : forall g icell iv cen vtx l,
  nth_error (g_cc g) icell = Some cen -> nth_error (g_vx g) iv = Some vtx -> nth_error (g_vfaces g) iv = Some l ->
  Forall (fun f => (f < length (g_fcells g))%nat) l -> length (filter (touches g icell) l) <> 3%nat ->
  SetupSubcell g icell iv = UB.
Proof. exact not_three_ub. Qed.

(** * The patch test *)

(** The pressures of the interfaces that satisfy the scheme's demands are the ones that
    are eliminated: the multi-point flux is the flux they give on either side. *)
Theorem C74_determined : forall b ncells v X l P pi,
  well_numbered v -> regular b v -> lapack_answer b v X -> NonCornerVertex b ncells v (Some X) = Ok l ->
  two_sided v -> balanced b ncells v P pi ->
  forall a s f cell row, nth_error (v_sub v) a = Some s -> In f (sfaces s) -> nth_error (v_cells v) a = Some cell ->
    nth_error (v_rows v) (place v f) = Some row -> mult l P row = side_flux s f (P cell) pi.
Proof. exact determined. Qed.

(** One tensor around the vertex, the pressure p0 + grad·x at the cell centres and on the
    Dirichlet faces: the flux through every sub-face is its area times n·K grad.  On a
    Neumann boundary the field must not cross it. *)
Theorem C74_patch_test : forall g K iv v face xf nrm ar, of_mesh g K iv v face -> complete g face v xf nrm ar ->
  forall ncells P cc p0 gr,
  (forall cell, In cell (v_cells v) -> nth_error (g_cc g) cell = Some (cc cell) /\ P cell = linear p0 gr (cc cell)) ->
  forall b X l, well_numbered v -> regular b v -> lapack_answer b v X -> NonCornerVertex b ncells v (Some X) = Ok l -> two_sided v ->
  (b <> NeumannBC -> forall f, In f (all_faces v) -> sf_internal f = false ->
     P (sf_bnd f + ncells)%nat = linear p0 gr (xf (sf_unk f))) ->
  (b = NeumannBC -> forall f, In f (all_faces v) -> sf_internal f = false ->
     ar (sf_unk f) * dot (nrm (sf_unk f)) (mat_vec K gr) = 0) ->
  forall f row, In f (all_faces v) -> nth_error (v_rows v) (place v f) = Some row ->
    mult l P row = ar (sf_unk f) * dot (nrm (sf_unk f)) (mat_vec K gr).
Proof. exact patch_proof. Qed.

(** * Two-point G matrices *)

(** The two sides of a face have opposite entries, for all tensors. *)
Theorem C75_opposite : forall area n xA xB KA KB GA GB,
  tpf_G area n xB xA true KA KB = Some GA -> tpf_G area n xA xB true KB KA = Some GB -> GB = - GA.
Proof. exact opposite_proof. Qed.
(** So the flux between two cells is a multiple of the difference of their pressures. *)
Theorem C75_two_point : forall b ncells v X l P, well_numbered v -> lapack_answer b v X -> NonCornerVertex b ncells v (Some X) = Ok l ->
  forall a s f A a' s' f' B row G, nth_error (v_sub v) a = Some s -> In f (sfaces s) -> nth_error (v_cells v) a = Some A ->
    nth_error (v_sub v) a' = Some s' -> In f' (sfaces s') -> nth_error (v_cells v) a' = Some B ->
    sf_internal f = true -> sf_internal f' = true -> sf_flux f = sf_flux f' ->
    two_point s f G -> two_point s' f' (- G) -> nth_error (v_rows v) (sf_flux f) = Some row ->
    mult l P row = G * (P A - P B) / 2.
Proof. exact two_point_proof. Qed.
(** It is exact for linear pressures when the face is orthogonal to the line between the
    cell centres and the permeability is the same in both cells and in all directions. *)
Theorem C75_orthogonal_partial : forall area n xA xB k p0 gr, k <> 0 -> xA <> xB ->
  vsub xB xA = vscale (length3 (vsub xB xA)) n ->
  exists G, tpf_G area n xB xA true (isotropic k) (isotropic k) = Some G /\
    G * (linear p0 gr xA - linear p0 gr xB) / 2 = area * dot n (mat_vec (isotropic k) gr).
Proof. exact orthogonal_proof. Qed.
(** Different permeabilities: the arithmetic mean is used where layers in series need the
    harmonic one. *)
Theorem C75_series_refuted : exists n xA xB G,
  vsub xB xA = vscale (length3 (vsub xB xA)) n /\ length3 (vsub xB xA) = 1 /\
  tpf_G 1 n xB xA true (isotropic 1) (isotropic 3) = Some G /\
  (exists q, series 1 3 (1/2) (1/2) 1 0 q) /\
  forall q, series 1 3 (1/2) (1/2) 1 0 q -> - (G * (1 - 0) / 2) <> q.
Proof. exact series_proof. Qed.
(** The temperature's entry uses the same number in all three components of nu_star.  On
    a face whose normal points along a positive axis it is right … *)
Theorem C75_heat_axis_partial : forall g icell cen vol f other inside n u dist area k,
  other_point g icell f = Ok (other, inside) -> nth_error (g_fn g) f = Some n ->
  UnitNormalVectorJoining other cen = Some u -> half_dist other cen inside = Some dist -> dist <> 0 -> vol <> 0 ->
  n = V3 1 0 0 \/ n = V3 0 1 0 \/ n = V3 0 0 1 ->
  exists st, nu_star g icell cen vol f = Ok (Some st) /\
    tpf_heat_G area n (isotropic k) st (vol * 6) = Some (area * k * dot n u / dist).
Proof. exact heat_axis_proof. Qed.
(** … on a boundary face whose normal points along a negative axis it has the wrong sign. *)
Theorem C75_heat_refuted : exists g cen other n, forall vol area k, 0 < vol -> 0 < area -> 0 < k ->
  other_point g 0 0 = Ok (other, false) /\ nth_error (g_fn g) 0 = Some n /\ nth_error (g_cc g) 0 = Some cen /\
  UnitNormalVectorJoining other cen = Some n /\ half_dist other cen false = Some (1/2) /\
  exists st G, nu_star g 0 cen vol 0 = Ok (Some st) /\ tpf_heat_G area n (isotropic k) st (vol * 6) = Some G /\
    G = - (area * k / (1/2)) /\
    forall p0 gr, area * dot n (mat_vec (isotropic k) gr) = - G * (linear p0 gr cen - linear p0 gr other).
Proof. exact heat_proof. Qed.
(** The entry of the saline concentration is never written: no diffusion. *)
Theorem C75_salinity_refuted : forall f0 f1 f2 f p pi,
  sf_g f = (tpf_psi_G, tpf_psi_G, tpf_psi_G) -> side_flux (f0, f1, f2) f p pi = 0.
Proof. exact salinity_proof. Qed.

(** * Two unit cubes *)
Example C73_example : exists s, SetupSubcell sx_geo 0 1 = Ok s /\ s_faces s = (0, 2, 1)%nat.
Proof. exact sx_setup0. Qed.
Example C74_example : exists l, NonCornerVertex DirichletBC 2 sx_v (Some sx_X) = Ok l /\ mult l sx_P 0 = 3 / 4.
Proof. exact sx_flux. Qed.
Example C74_example_hypotheses : of_mesh sx_geo sx_K 1 sx_v sx_face /\ complete sx_geo sx_face sx_v sx_xf sx_n sx_a /\
  well_numbered sx_v /\ regular DirichletBC sx_v /\ lapack_answer DirichletBC sx_v sx_X /\ two_sided sx_v.
Proof. exact (conj sx_mesh (conj sx_complete (conj sx_well_numbered (conj sx_regular (conj sx_answer sx_two_sided))))). Qed.

Print Assumptions C73_faces.
Print Assumptions C73_dual_basis.
Print Assumptions C73_oriented.
Print Assumptions C73_parallelepiped.
Print Assumptions C73_prism.
Print Assumptions C73_distorted_refuted.
Print Assumptions C73_gradient.
Print Assumptions C73_subface_areas.
Print Assumptions C73_setup.
Print Assumptions C73_centroid_refuted.
Print Assumptions C73_three_faces_refuted.
Print Assumptions C74_determined.
Print Assumptions C74_patch_test.
Print Assumptions C75_opposite.
Print Assumptions C75_two_point.
Print Assumptions C75_orthogonal_partial.
Print Assumptions C75_series_refuted.
Print Assumptions C75_heat_axis_partial.
Print Assumptions C75_heat_refuted.
Print Assumptions C75_salinity_refuted.
