(** C94: distances and areas of the faces of a mesh that is read from a file. *)
From Coq Require Import Reals List ZArith Lra Lia.
From Verif Require Import Prelude Arrays Geom SpecGeom UGrid SpecFaceGeo CellGeo SpecCellGeo CellGeoProofs MeshFaces SpecMeshFaces
  FaceAttr SpecFaceAttr FaceAttrProofs FaceAttrExamples.
Import ListNotations.
Local Open Scope R_scope.

(** A conforming mesh of convex cells with flat faces, read from a file.  The cells get
    their centres, every pair of neighbours of which the smaller is local gets a
    connection, and every connection gets the area of the common side of its two cells,
    the distances of their centres from it along the line that joins them, which add up
    to the distance between the centres, the share of the first, the unit vector from
    the first centre to the second, and the area times the cosine of the angle between
    this vector and the normal.  Missing: warped faces; the table face_to_cell must be
    handed back (C92_memory_refuted) and the rows of unit_vec_up_dn must have room for
    three numbers (C94_room_refuted). *)
Theorem C94_faces_partial : forall nl ng cnv cv nbs coords pts nat_ids maxv,
  conforming nl ng cnv cv nbs -> solid coords cnv cv pts ng -> length nat_ids = ng -> (8 <= maxv)%nat ->
  exists cells cents r, setup_cells coords cv cnv nat_ids maxv nl ng = Ok cells /\ map u_cen cells = map Some cents /\
  (forall c, (c < ng)%nat -> exists m, nth_error cents c = Some m /\ mean (pts c) m) /\
  setup_faces cnv cv nbs nl ng true = Ok r /\
  (forall c d, (c < nl)%nat -> (c < d)%nat -> (d < ng)%nat -> adjacent cnv cv c d -> exists p, (p < k_n (f_conns r))%nat /\
     nth_error (k_cells (f_conns r)) (2 * p) = Some (Z.of_nat c) /\ nth_error (k_cells (f_conns r)) (2 * p + 1) = Some (Z.of_nat d)) /\
  forall t, roomy (k_n (f_conns r)) t -> exists t', attrs_of_conns coords cents (f_verts r) (f_conns r) t = Ok t' /\
    forall p, (p < k_n (f_conns r))%nat -> exists c d i j n up dn ar pr d1 d2 dist w u,
      (c < nl)%nat /\ (c < d)%nat /\ (d < ng)%nat /\ common cnv cv c i d j /\
      nth_error (k_cells (f_conns r)) (2 * p) = Some (Z.of_nat c) /\ nth_error (k_cells (f_conns r)) (2 * p + 1) = Some (Z.of_nat d) /\
      nth_error cents c = Some up /\ nth_error cents d = Some dn /\ polygon n (face_points cnv pts c i) /\
      (forall q, In q (face_points cnv pts c i) -> height n q up < 0 < height n q dn) /\
      described n (face_points cnv pts c i) up dn ar pr d1 d2 dist w u /\ stored t' p ar pr d1 d2 dist w u.
Proof.
  intros nl ng cnv cv nbs coords pts nat_ids maxv W Ws Ln Lm.
  destruct (cells_centres nl ng cnv cv nbs coords pts nat_ids maxv W Ws Ln Lm) as [cells [cents [E [M C]]]].
  destruct (conns_stored nl ng cnv cv nbs coords cents pts W Ws C) as [r [Er [H1 H2]]]. exists cells, cents, r.
  do 5 (split; [assumption|]). intros t Ht. destruct (H2 t Ht) as [t' [Et H]]. exists t'. split; [exact Et|]. intros p Hp.
  destruct (H p Hp) as [a [(c & d & i & j & n & up & dn & A) St]]. exists c, d, i, j, n, up, dn. do 7 eexists. intuition eassumption.
Qed.

(** AllocateFaces gives unit_vec_up_dn rows of two numbers and three are written
    (tdymeshcustom.c:1135-1137): every such mesh with a local cell that has a neighbour
    with a larger number writes outside of the array. *)
Theorem C94_room_refuted : forall nl ng cnv cv nbs coords cents pts,
  conforming nl ng cnv cv nbs -> solid coords cnv cv pts ng ->
  (forall c, (c < ng)%nat -> exists m, nth_error cents c = Some m /\ mean (pts c) m) ->
  forall c d, (c < nl)%nat -> (c < d)%nat -> (d < ng)%nat -> adjacent cnv cv c d ->
  exists r, setup_faces cnv cv nbs nl ng true = Ok r /\
    attrs_of_conns coords cents (f_verts r) (f_conns r) (allocate_ctables (k_n (f_conns r))) = UB.
Proof. exact conns_no_room. Qed.

(** The unit cube and a wedge beside it: the common side has area 1 and cuts the line
    between the centres at 9/17 of its length. *)
Example C94_example : conforming 1 2 cw_cnv cw_cv cw_nbs /\ solid cw_coords cw_cnv cw_cv cw_pts 2 /\
  exists cells cents r, setup_cells cw_coords cw_cv cw_cnv [0; 1]%Z 8 1 2 = Ok cells /\ map u_cen cells = map Some cents /\
    setup_faces cw_cnv cw_cv cw_nbs 1 2 true = Ok r /\
    forall t, roomy 1 t -> exists t', attrs_of_conns cw_coords cents (f_verts r) (f_conns r) t = Ok t' /\
      nth_error (h_area t') 0 = Some 1 /\ nth_error (h_wt t') 0 = Some (9 / 17).
Proof.
  split; [exact cw_conforming|]. split; [exact cw_solid|].
  destruct (C94_faces_partial 1 2 cw_cnv cw_cv cw_nbs cw_coords cw_pts [0; 1]%Z 8 cw_conforming cw_solid eq_refl (le_n 8)) as [cells [cents [r [E1 [E2 [E3 [E4 [_ H]]]]]]]].
  exists cells, cents, r. do 3 (split; [assumption|]). 
  assert (Kn : k_n (f_conns r) = 1%nat) by (vm_compute in E4; injection E4 as <-; reflexivity). rewrite Kn in H.
  intros t Ht. destruct (H t Ht) as [t' [Et Hp]]. exists t'. split; [exact Et|].
  destruct (Hp 0%nat ltac:(lia)) as (c & d & i & j & n & up & dn & ar & pr & d1 & d2 & dist & w & u & X1 & X2 & X3 & Com & _ & _ & Eu & Ed & P & _ & D & St).
  assert (c = 0%nat) by lia. assert (d = 1%nat) by lia. subst c d.
  apply cw_common in Com; [|lia..]. destruct Com as [Com|Com]; [|discriminate Com]. injection Com as -> ->.
  destruct D as [[A1 A2] [_ [_ D3]] _ _ Cut [Sh _]]. destruct St as [S1 [_ [_ [S4 _]]]]. rewrite S1, S4.
  assert (En : n = V3 1 0 0).
  { apply (polygon_normal _ _ _ P). split; [unfold unit, dot; cbn; lra|]. cbn. repeat split; turn 1. }
  subst n. cbn in A1. split; [f_equal; rewrite A1; unfold area, vector_area; cbn; unfold dot, vadd, vscale, cross; cbn; lra|]. f_equal.
  destruct (E3 0%nat ltac:(lia)) as [m0 [F0 M0]]. destruct (E3 1%nat ltac:(lia)) as [m1 [F1 M1]].
  rewrite Eu in F0. injection F0 as <-. rewrite Ed in F1. injection F1 as <-.
  destruct M0 as [M0 _]. destruct M1 as [M1 _]. cbn [length cw_pts map sum vx INR] in M0, M1.
  pose proof (Cut (V3 1 0 0) ltac:(left; reflexivity)) as C0. unfold height, dot, vsub, vadd, vscale in C0. cbn [vx vy vz] in C0.
  assert (Dx : vx dn = vx up + dist * vx u) by (rewrite D3; reflexivity).
  assert (vx up = 1 / 2) by lra. assert (vx dn = 13 / 9) by lra.
  assert (W1 : w * (17 / 18) = 1 / 2). { transitivity (w * dist * vx u); [replace (w * dist * vx u) with (w * (dist * vx u)) by ring; f_equal; lra|]. rewrite Sh. lra. }
  lra.
Qed.

Print Assumptions C94_faces_partial.
Print Assumptions C94_room_refuted.
Print Assumptions C94_example.
