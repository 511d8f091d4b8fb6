(** C79: the unknowns of the finite elements belong to the right faces and vertices. *)
From Coq Require Import Reals List ZArith Bool Arith Lia Lra.
From Verif Require Import Prelude Arrays Wy FeMap SpecFeMap FeMapProofs FeMapUnknownProofs FeMapWyProofs FeMapExample.
Import ListNotations.
Local Open Scope nat_scope.

(** Setup of the BDM method: for every cell, corner and direction, the maps hold the
    vertex, the face with the sign of its normal, and the number of the unknown that
    belongs to this vertex of this face, whatever the order of the closures. *)
Theorem C79_maps : forall m corner wall start, boxes m corner wall -> square_faces m -> 0 < p_cells m ->
  let dim := p_dim m in let nv := 2 ^ dim in
  exists vmap emap L W, BDMMaps m start = Ok (vmap, emap, (L, W)) /\
  forall c, c < p_cells m -> nth_error L (c * (dim * nv + 1) + dim * nv) = Some (first_unknown (start c)) /\
  forall v, v < nv -> nth_error vmap (c * nv + v) = Some (corner c v) /\
  forall d, d < dim -> exists z i, nth_error emap (c * nv * dim + v * dim + d) = Some z /\ denotes m c (wall_of wall c v d) z /\
    nth_error (vertices_of m (wall_of wall c v d)) i = Some (corner c v) /\
    nth_error L (c * (dim * nv + 1) + v * dim + d) = Some (first_unknown (start (wall_of wall c v d)) + Z.of_nat i)%Z /\
    nth_error W (c * (dim * nv + 1) + v * dim + d) = Some (Z.sgn z).
Proof. intros m corner wall start B SF H. exact (maps_proof m corner wall B SF start H). Qed.
(** Two local unknowns have the same number exactly if they belong to the same vertex of
    the same face; no unknown of a face is one of a cell. *)
Theorem C79_shared : forall m corner wall start c v d c' v' d' i i', boxes m corner wall -> square_faces m -> own_ranges m start ->
  c < p_cells m -> c' < p_cells m -> v < 2 ^ p_dim m -> v' < 2 ^ p_dim m -> d < p_dim m -> d' < p_dim m ->
  nth_error (vertices_of m (wall_of wall c v d)) i = Some (corner c v) ->
  nth_error (vertices_of m (wall_of wall c' v' d')) i' = Some (corner c' v') ->
  ((first_unknown (start (wall_of wall c v d)) + Z.of_nat i = first_unknown (start (wall_of wall c' v' d')) + Z.of_nat i')%Z
   <-> wall_of wall c v d = wall_of wall c' v' d' /\ corner c v = corner c' v')
  /\ forall k, k < p_cells m -> (first_unknown (start (wall_of wall c v d)) + Z.of_nat i <> first_unknown (start k))%Z.
Proof. intros m corner wall start c v d c' v' d' i i' B SF. exact (shared_proof m corner wall B SF start c v d c' v' d' i i'). Qed.
(** The same maps in the Wheeler-Yotov method: what C66 and C67 assume of the elements
    around a vertex ([good_star]) holds. *)
Theorem C79_wheeler_yotov : forall m corner wall, boxes m corner wall -> let n := p_dim m in
  exists vm em, CreateCellVertexMap m (2 ^ n) = Ok vm /\ CreateCellVertexDirFaceMap m (2 ^ n) vm = Ok em /\
  forall ki c k, c < p_cells m -> k < 2 ^ n -> let el := element_of n vm em ki c in
    NoDup (vmap el) /\ length (vmap el) = 2 ^ n /\ nth_error (vmap el) k = Some (corner c k) /\
    forall d, d < n -> exists z, nth_error (emap el) (k * n + d) = Some z /\ z <> 0%Z /\ face z = wall_of wall c k d /\
      (outward m c (wall_of wall c k d) -> sign z = 1%R) /\ (~ outward m c (wall_of wall c k d) -> sign z = (-1)%R).
Proof. intros m corner wall B. exact (wy_proof m corner wall B). Qed.

(** Cells of different kinds are not refused: the error code becomes the number of
    vertices per cell, and a buffer is read far beyond its end. *)
Theorem C79_mixed_refuted : forall m start c1 c2, 0 < p_dim m -> (forall c, length (p_image m c) <= 24) -> c1 < p_cells m -> c2 < p_cells m ->
  count_vertices m c1 <> count_vertices m c2 -> (0 < count_vertices m 0)%Z -> NumberOfCellVertices m = 56%Z /\ BDMMaps m start = UB.
Proof. exact mixed_proof. Qed.
(** If the images of the corners are off by more than 10^-12, as by rounding where
    coordinates are around 10^5, no vertex is found and no error reported; the setup then
    reads before the start of an array. *)
Theorem C79_tolerance_refuted : exists m m', boxes m sq_corner sq_wall /\ square_faces m /\ m' = shifted (/ 10 ^ 11) /\
  p_closure m' = p_closure m /\ p_X m' = p_X m /\ (forall c, p_image m' c = map (fun x => (x + / 10 ^ 11)%R) (p_image m c)) /\
  CreateCellVertexMap m' 4 = Ok (repeat 0 8) /\ forall start, BDMMaps m' start = UB.
Proof.
  exists squares, (shifted (/ 10 ^ 11)). split; [exact squares_boxes|]. split; [exact squares_faces|]. repeat (split; [reflexivity|]).
  split; [exact (proj1 (shifted_far _ (fun _ => 0%Z) eleven))|]. intro start. exact (proj2 (shifted_far _ start eleven)).
Qed.

(** Two squares: the maps are defined, and the common edge (9) is seen with opposite signs. *)
Example C79_example : boxes squares sq_corner sq_wall /\ square_faces squares /\ own_ranges squares sq_start /\
  exists vmap emap L W, BDMMaps squares sq_start = Ok (vmap, emap, (L, W)) /\
    nth_error emap 2 = Some 9%Z /\ nth_error emap 8 = Some (-9)%Z /\ nth_error L 2 = nth_error L 9 /\ nth_error L 2 = Some 4%Z.
Proof.
  split; [exact squares_boxes|]. split; [exact squares_faces|]. split; [exact squares_ranges|].
  destruct (C79_maps squares sq_corner sq_wall sq_start squares_boxes squares_faces ltac:(cbn; lia)) as [vm [em [L [W [E H]]]]].
  exists vm, em, L, W. split; [exact E|].
  destruct (H 0 ltac:(cbn; lia)) as [_ H0]. destruct (H0 1 ltac:(cbn; lia)) as [_ H1]. destruct (H1 0 ltac:(cbn; lia)) as [z [i [Z1 [[Z2 [Z3 Z4]] [V [L1 _]]]]]].
  destruct (H 1 ltac:(cbn; lia)) as [_ K0]. destruct (K0 0 ltac:(cbn; lia)) as [_ K1]. destruct (K1 0 ltac:(cbn; lia)) as [z' [i' [Y1 [[Y2 [Y3 Y4]] [V' [L2 _]]]]]].
  assert (I : i = 0) by (destruct i as [|[|[|i]]]; [reflexivity|discriminate V|discriminate V|destruct i; discriminate V]).
  assert (I' : i' = 0) by (destruct i' as [|[|[|i']]]; [reflexivity|discriminate V'|discriminate V'|destruct i'; discriminate V']).
  subst i i'. change (wall_of sq_wall 0 1 0) with 9 in *. change (wall_of sq_wall 1 0 0) with 9 in *.
  assert (O1 : outward squares 0 9) by (unfold outward; cbv -[Rplus Rminus Ropp Rmult Rdiv Rinv IZR Rle]; lra).
  assert (O2 : ~ outward squares 1 9) by (unfold outward; cbv -[Rplus Rminus Ropp Rmult Rdiv Rinv IZR Rle not]; lra).
  specialize (Z3 O1). specialize (Y4 O2). cbn [p_dim squares] in *.
  split; [|split; [|split]].
  - rewrite <- (f_equal Some (eq_trans (Z.abs_eq z ltac:(lia)) eq_refl)) in Z1. rewrite Z2 in Z1. exact Z1.
  - assert (X : z' = (-9)%Z) by lia. rewrite X in Y1. exact Y1.
  - etransitivity; [exact L1|]. symmetry. exact L2.
  - exact L1.
Qed.

Print Assumptions C79_maps.
Print Assumptions C79_shared.
Print Assumptions C79_wheeler_yotov.
Print Assumptions C79_mixed_refuted.
Print Assumptions C79_tolerance_refuted.
