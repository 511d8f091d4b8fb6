(** C96: the gravity term of the multi-point scheme. *)
From Coq Require Import Reals List Bool Arith ZArith Lia Lra.
From Verif Require Import Prelude Geom SpecGeom Mpfao SpecMpfao Subcell SpecSubcell SubcellExamples Gravity SpecGravity GravityProofs GravityMoreProofs GravityLayers GravityDiagonal GravityExamples.
Import ListNotations.
Local Open Scope R_scope.

(** Every sub-face of this process gets its gravity term at its own place; all other
    places keep what they had. *)
Theorem C96_places : forall m how bc gravity, subs_distinct m -> forall vec vec', GravityDiscretization m how bc gravity vec = Ok vec' ->
  length vec' = length vec /\
  (forall i, (forall iv j f, ~ term_at m bc iv j f i) -> nth_error vec' i = nth_error vec i) /\
  (forall iv j f i, term_at m bc iv j f i -> exists x, grav_dis m how bc gravity iv f = Ok (Some x) /\ nth_error vec' i = Some x).
Proof. exact places_proof. Qed.
(** With complete tables nothing outside them is accessed. *)
Theorem C96_complete : forall m how bc gravity vec, tables m ->
  (forall iv j f i, term_at m bc iv j f i -> (i < length vec)%nat /\ exists x, grav_dis m how bc gravity iv f = Ok (Some x)) ->
  exists vec', GravityDiscretization m how bc gravity vec = Ok vec'.
Proof. exact complete_proof. Qed.
(** The sub-face is found by its face and its vertex among the sub-faces of the cell, if
    all cells before it have as many vertices as the cell. *)
Theorem C96_subface : forall m c nv v f,
  nth_error (q_nv m) c = Some nv -> (c * (nv * 3) + nv * 3 <= length (q_sfaces m))%nat -> (c * (nv * 3) + nv * 3 <= length (q_sverts m))%nat ->
  forall id, (c * (nv * 3) <= id < c * (nv * 3) + nv * 3)%nat ->
  nth_error (q_sfaces m) id = Some (Z.of_nat f) -> nth_error (q_sverts m) id = Some (Z.of_nat v) ->
  (forall id', (c * (nv * 3) <= id' < c * (nv * 3) + nv * 3)%nat ->
     nth_error (q_sfaces m) id' = Some (Z.of_nat f) -> nth_error (q_sverts m) id' = Some (Z.of_nat v) -> id' = id) ->
  subcell_id m (Z.of_nat c) v f = Ok id.
Proof. exact subcell_proof. Qed.

(** Water at rest stays at rest (density constant, one permeability around the vertex
    whose entries are neither negative nor tiny): the flux of the pressure and the gravity
    term cancel on every sub-face whose normal, multiplied by the permeability, points
    along the line between the two centres. *)
Theorem C96_rest_partial : forall m K iv v face xf nrm ar, of_mesh (q_geo m) K iv v face -> complete (q_geo m) face v xf nrm ar ->
  uniform m K -> symmetric K -> invertible K ->
  forall ncells P cc p0 rho gz,
  (forall cell, In cell (v_cells v) -> nth_error (g_cc (q_geo m)) cell = Some (cc cell) /\ P cell = at_rest p0 rho gz (cc cell)) ->
  forall b X l, well_numbered v -> regular b v -> lapack_answer b v X -> NonCornerVertex b ncells v (Some X) = Ok l -> two_sided v ->
  (b <> NeumannBC -> forall f, In f (all_faces v) -> sf_internal f = false -> P (sf_bnd f + ncells)%nat = at_rest p0 rho gz (xf (sf_unk f))) ->
  (b = NeumannBC -> forall f, In f (all_faces v) -> sf_internal f = false -> ar (sf_unk f) * vz (mat_vec K (nrm (sf_unk f))) = 0) ->
  not_small K -> forall f row xu xd u kappa, In f (all_faces v) -> nth_error (v_rows v) (place v f) = Some row ->
  sides (q_geo m) (face (sf_unk f)) xu xd -> unit_between xu xd u -> area_known m iv (face (sf_unk f)) (ar (sf_unk f)) ->
  (b = NeumannBC -> forall c, nth_error (g_fcells (q_geo m)) (face (sf_unk f)) = Some c -> (0 <= fst c)%Z /\ (0 <= snd c)%Z) ->
  mat_vec K (nrm (sf_unk f)) = vscale kappa u ->
  exists G, grav_dis m DefaultG b (V3 0 0 gz) iv (face (sf_unk f)) = Ok (Some (Some G)) /\ mult l P row + rho * G = 0.
Proof. exact rest_proof. Qed.
(** A permeability that lets a vertical gradient drive flow along x (a tilted layer), on a
    face across the x axis: the pressure of water at rest gives a flux and the gravity
    term is zero, so water at rest starts to flow. *)
Theorem C96_tilted_refuted : forall m K iv v face xf nrm ar, of_mesh (q_geo m) K iv v face -> complete (q_geo m) face v xf nrm ar ->
  uniform m K -> symmetric K -> invertible K -> not_small K -> m2 K <> 0 ->
  forall ncells P cc p0 rho gz b X l,
  (forall cell, In cell (v_cells v) -> nth_error (g_cc (q_geo m)) cell = Some (cc cell) /\ P cell = at_rest p0 rho gz (cc cell)) ->
  well_numbered v -> regular b v -> lapack_answer b v X -> NonCornerVertex b ncells v (Some X) = Ok l -> two_sided v ->
  b <> NeumannBC -> (forall f, In f (all_faces v) -> sf_internal f = false -> P (sf_bnd f + ncells)%nat = at_rest p0 rho gz (xf (sf_unk f))) ->
  forall f row xu xd, In f (all_faces v) -> nth_error (v_rows v) (place v f) = Some row ->
  sides (q_geo m) (face (sf_unk f)) xu xd -> unit_between xu xd (V3 1 0 0) -> nrm (sf_unk f) = V3 1 0 0 ->
  area_known m iv (face (sf_unk f)) (ar (sf_unk f)) -> ar (sf_unk f) <> 0 -> rho <> 0 -> gz <> 0 ->
  exists G, grav_dis m DefaultG b (V3 0 0 gz) iv (face (sf_unk f)) = Ok (Some (Some G)) /\ mult l P row + rho * G <> 0.
Proof. exact tilted_proof. Qed.

(** Two cells with permeabilities without direction: the term uses the permeability of
    the two layers in series. *)
Theorem C96_layers : forall m f a b xA xB xf u n kA kB,
  nth_error (g_fcells (q_geo m)) f = Some (Z.of_nat a, Z.of_nat b) ->
  nth_error (g_cc (q_geo m)) a = Some xA -> nth_error (g_cc (q_geo m)) b = Some xB ->
  nth_error (g_fc (q_geo m)) f = Some xf -> nth_error (g_fn (q_geo m)) f = Some n ->
  nth_error (q_K m) a = Some (isotropic kA) -> nth_error (q_K m) b = Some (isotropic kB) ->
  unit_between xA xB u -> 0 < kA -> 0 < kB -> 0 < length3 (vsub xA xf) -> 0 < length3 (vsub xB xf) -> step <= kA -> step <= kB ->
  exists k, FaceValueMPFAO m f = Ok (Some (k * dot n u)) /\
    forall pA pB, series kA kB (length3 (vsub xA xf)) (length3 (vsub xB xf)) pA pB (k * (pA - pB) / (length3 (vsub xA xf) + length3 (vsub xB xf))).
Proof. exact layers_proof. Qed.
(** The same with two-point fluxes. *)
Theorem C96_layers_two_point : forall m f a b xA xB xf u kA kB,
  nth_error (g_fcells (q_geo m)) f = Some (Z.of_nat a, Z.of_nat b) ->
  nth_error (g_cc (q_geo m)) a = Some xA -> nth_error (g_cc (q_geo m)) b = Some xB -> nth_error (g_fc (q_geo m)) f = Some xf ->
  nth_error (q_K m) a = Some (isotropic kA) -> nth_error (q_K m) b = Some (isotropic kB) ->
  unit_between xA xB u -> 0 < kA -> 0 < kB -> 0 < length3 (vsub xA xf) -> 0 < length3 (vsub xB xf) ->
  exists k, FaceValueTPF m f = Ok (Some k) /\
    forall pA pB, series kA kB (length3 (vsub xA xf)) (length3 (vsub xB xf)) pA pB (k * (pA - pB) / (length3 (vsub xA xf) + length3 (vsub xB xf))).
Proof. exact tpf_layers_proof. Qed.

(** Permeabilities along the axes, different in every direction: each layer counts with its
    permeability along the line [u] between the centres, 1 / (u·K⁻¹u). *)
Theorem C96_axes_two_point : forall m f a b xA xB xf u wA wB a1 a2 a3 b1 b2 b3,
  nth_error (g_fcells (q_geo m)) f = Some (Z.of_nat a, Z.of_nat b) ->
  nth_error (g_cc (q_geo m)) a = Some xA -> nth_error (g_cc (q_geo m)) b = Some xB -> nth_error (g_fc (q_geo m)) f = Some xf ->
  nth_error (q_K m) a = Some (diagonal a1 a2 a3) -> nth_error (q_K m) b = Some (diagonal b1 b2 b3) ->
  0 < a1 -> 0 < a2 -> 0 < a3 -> 0 < b1 -> 0 < b2 -> 0 < b3 ->
  unit_between xA xB u -> mat_vec (diagonal a1 a2 a3) wA = u -> mat_vec (diagonal b1 b2 b3) wB = u ->
  0 < length3 (vsub xA xf) -> 0 < length3 (vsub xB xf) ->
  exists k, FaceValueTPF m f = Ok (Some k) /\
    forall pA pB, series (/ dot u wA) (/ dot u wB) (length3 (vsub xA xf)) (length3 (vsub xB xf)) pA pB (k * (pA - pB) / (length3 (vsub xA xf) + length3 (vsub xB xf))).
Proof. exact tpf_diagonal. Qed.
(** A permeability below 2^-52 square metres (clay, unfractured rock) is taken for zero:
    no gravity at all (tdympfao.c:2044). *)
Theorem C96_tiny_refuted : forall m f xu xd u xf n k, uniform m (isotropic k) -> 0 < k < step ->
  sides (q_geo m) f xu xd -> unit_between xu xd u -> nth_error (g_fc (q_geo m)) f = Some xf -> nth_error (g_fn (q_geo m)) f = Some n ->
  forall bc gravity iv a, area_known m iv f a ->
  (bc = NeumannBC -> forall c, nth_error (g_fcells (q_geo m)) f = Some c -> (0 <= fst c)%Z /\ (0 <= snd c)%Z) ->
  grav_dis m DefaultG bc gravity iv f = Ok (Some (Some 0)).
Proof. exact tiny_proof. Qed.
(** Negative entries of a permeability are dropped too: on a face at 45 degrees the term
    is twice what balances water at rest (C96_rest_partial: area·|g|·(K n)_z). *)
Theorem C96_negative_refuted : exists m K f n u xu xd,
  uniform m K /\ symmetric K /\ (forall x, x <> V3 0 0 0 -> 0 < dot x (mat_vec K x)) /\
  sides (q_geo m) f xu xd /\ unit_between xu xd u /\ nth_error (g_fn (q_geo m)) f = Some n /\ mat_vec K n = u /\ n = u /\ vz u <> 0 /\ area_known m 0 f 1 /\
  forall b gz, grav_dis m DefaultG b (V3 0 0 gz) 0 f = Ok (Some (Some (2 * (1 * Rabs gz * vz (mat_vec K n))))).
Proof. exact negative_proof. Qed.

(** With two-point fluxes (C75) water at rest stays at rest where the face is orthogonal
    to the line between the centres and both cells have the same permeability … *)
Theorem C96_two_point_partial : forall m f a b xA xB xf n k,
  nth_error (g_fcells (q_geo m)) f = Some (Z.of_nat a, Z.of_nat b) ->
  nth_error (g_cc (q_geo m)) a = Some xA -> nth_error (g_cc (q_geo m)) b = Some xB ->
  nth_error (g_fc (q_geo m)) f = Some xf -> nth_error (g_fn (q_geo m)) f = Some n ->
  nth_error (q_K m) a = Some (isotropic k) -> nth_error (q_K m) b = Some (isotropic k) -> 0 < k -> unit_between xA xB n ->
  forall bc iv area, area_known m iv f area -> forall p0 rho gz,
  exists G GD, tpf_G area n xB xA true (isotropic k) (isotropic k) = Some G /\
    grav_dis m TPF bc (V3 0 0 gz) iv f = Ok (Some (Some GD)) /\
    G * (at_rest p0 rho gz xA - at_rest p0 rho gz xB) / 2 + rho * GD = 0.
Proof. exact tpf_rest_proof. Qed.
(** … but never between two layers of equal thickness and different permeability, however
    regular the mesh: the pressure uses the arithmetic mean, gravity the harmonic one. *)
Theorem C96_two_point_refuted : forall m f a b xA xB xf n kA kB,
  nth_error (g_fcells (q_geo m)) f = Some (Z.of_nat a, Z.of_nat b) ->
  nth_error (g_cc (q_geo m)) a = Some xA -> nth_error (g_cc (q_geo m)) b = Some xB ->
  nth_error (g_fc (q_geo m)) f = Some xf -> nth_error (g_fn (q_geo m)) f = Some n ->
  nth_error (q_K m) a = Some (isotropic kA) -> nth_error (q_K m) b = Some (isotropic kB) -> 0 < kA -> 0 < kB -> kA <> kB ->
  unit_between xA xB n -> length3 (vsub xA xf) = length3 (vsub xB xf) -> vz n <> 0 ->
  forall bc iv area, area_known m iv f area -> area <> 0 -> forall p0 rho gz, rho <> 0 -> gz <> 0 ->
  exists G GD, tpf_G area n xB xA true (isotropic kA) (isotropic kB) = Some G /\
    grav_dis m TPF bc (V3 0 0 gz) iv f = Ok (Some (Some GD)) /\
    G * (at_rest p0 rho gz xA - at_rest p0 rho gz xB) / 2 + rho * GD <> 0.
Proof. exact tpf_unrest_proof. Qed.

(** * Two unit cubes *)
(** At rest on the bottom face of the first cube. *)
Example C96_example : exists l G, NonCornerVertex DirichletBC 2 sx_v (Some sx_X) = Ok l /\
  grav_dis (sz_m sx_K) DefaultG DirichletBC (V3 0 0 (-10)) 1 2 = Ok (Some (Some G)) /\ mult l (sz_P 3 (-10)) 4 + 3 * G = 0.
Proof. exact rest_example. Qed.
(** A tilted permeability, on the face between the cubes. *)
Example C96_tilted_example : exists l G, NonCornerVertex DirichletBC 2 sz_v (Some sz_X) = Ok l /\
  grav_dis (sz_m sz_K) DefaultG DirichletBC (V3 0 0 (-10)) 1 0 = Ok (Some (Some G)) /\ mult l (sz_P 3 (-10)) 0 + 3 * G <> 0.
Proof. exact tilted_example. Qed.
Example C96_whole_example : exists vec, GravityDiscretization (sz_m sz_K) DefaultG DirichletBC (V3 0 0 (-10)) (repeat (Some 7) 20) = Ok vec /\
  nth_error vec 0 = Some (Some 0) /\ nth_error vec 1 = Some (Some 7) /\ nth_error vec 8 = Some (Some (30 / 4)).
Proof. exact whole_example. Qed.
(** Two centres apart in x and y. *)
Definition slant_m : gmesh :=
  mkGmesh (mkGeo [V3 0 0 0; V3 6 8 0] [] [V3 3 4 0] [] [] [(0, 1)%Z] [] []) [] [] [] [] [] [] [] [diagonal 1 2 3; diagonal 2 2 2].
Example C96_axes_example : exists k, FaceValueTPF slant_m 0 = Ok (Some k) /\ forall pA pB, series (/ (17 / 25)) (/ (1 / 2)) 5 5 pA pB (k * (pA - pB) / (5 + 5)).
Proof.
  assert (L : length3 (vsub (V3 6 8 0) (V3 0 0 0)) = 10).
  { unfold length3, dot, vsub. cbn [vx vy vz]. match goal with |- sqrt ?a = _ => replace a with (10 * 10) by ring end. apply sqrt_square. lra. }
  assert (LA : length3 (vsub (V3 0 0 0) (V3 3 4 0)) = 5).
  { unfold length3, dot, vsub. cbn [vx vy vz]. match goal with |- sqrt ?a = _ => replace a with (5 * 5) by ring end. apply sqrt_square. lra. }
  assert (LB : length3 (vsub (V3 6 8 0) (V3 3 4 0)) = 5).
  { unfold length3, dot, vsub. cbn [vx vy vz]. match goal with |- sqrt ?a = _ => replace a with (5 * 5) by ring end. apply sqrt_square. lra. }
  destruct (C96_axes_two_point slant_m 0 0 1 (V3 0 0 0) (V3 6 8 0) (V3 3 4 0) (V3 (3/5) (4/5) 0) (V3 (3/5) (2/5) 0) (V3 (3/10) (2/5) 0) 1 2 3 2 2 2)
    as [k [E H]]; try reflexivity; try lra.
  - split; [injection; lra|]. rewrite L. unfold vsub, vscale. cbn [vx vy vz]. f_equal; lra.
  - unfold mat_vec, diagonal. cbn [m0 m1 m2 m3_ m4 m5 m6 m7 m8 vx vy vz]. f_equal; lra.
  - unfold mat_vec, diagonal. cbn [m0 m1 m2 m3_ m4 m5 m6 m7 m8 vx vy vz]. f_equal; lra.
  - exists k. split; [exact E|]. intros pA pB. specialize (H pA pB). rewrite LA, LB in H.
    replace (17 / 25) with (dot (V3 (3/5) (4/5) 0) (V3 (3/5) (2/5) 0)) by (unfold dot; cbn [vx vy vz]; lra).
    replace (1 / 2) with (dot (V3 (3/5) (4/5) 0) (V3 (3/10) (2/5) 0)) by (unfold dot; cbn [vx vy vz]; lra). exact H.
Qed.

Print Assumptions C96_places.
Print Assumptions C96_complete.
Print Assumptions C96_subface.
Print Assumptions C96_rest_partial.
Print Assumptions C96_tilted_refuted.
Print Assumptions C96_layers.
Print Assumptions C96_layers_two_point.
Print Assumptions C96_axes_two_point.
Print Assumptions C96_tiny_refuted.
Print Assumptions C96_negative_refuted.
Print Assumptions C96_two_point_partial.
Print Assumptions C96_two_point_refuted.
