(** C92: the faces of a mesh that is read from a file. *)
From Coq Require Import List ZArith.
From Verif Require Import Prelude MeshFaces SpecCellGeo SpecMeshFaces MeshFacesProofs MeshFacesExamples.
Import ListNotations.
Local Open Scope nat_scope.

(** The internal faces of every conforming mesh, provided that the table face_to_cell
    is handed back to the caller ([true]).  There is one connection for each pair of
    neighbouring cells of which the smaller is local, between these two cells; its face
    has a number below num_faces, the number of vertices of the common side, and its
    column of face_to_vertex runs through them.  Sides get the same number exactly if
    they are the same side or the common side of a connection, and no number is unused. *)
Theorem C92_faces_partial : forall nl ng cnv cv nbs, conforming nl ng cnv cv nbs ->
  exists r prs, setup_faces cnv cv nbs nl ng true = Ok r /\
  NoDup prs /\ (forall c d, In (c, d) prs <-> c < nl /\ c < d /\ d < ng /\ adjacent cnv cv c d) /\
  k_n (f_conns r) = length prs /\ length (k_cells (f_conns r)) = 2 * length prs /\
  length (k_id (f_conns r)) = length prs /\ length (k_face (f_conns r)) = length prs /\ length (k_nv (f_conns r)) = length prs /\
  (forall p c d, nth_error prs p = Some (c, d) ->
     nth_error (k_cells (f_conns r)) (2 * p) = Some (Z.of_nat c) /\ nth_error (k_cells (f_conns r)) (2 * p + 1) = Some (Z.of_nat d) /\
     exists i j f l, common cnv cv c i d j /\ f < f_num r /\ rotation (side cnv cv c i) l /\ column (f_verts r) f l /\
       nth_error (k_id (f_conns r)) p = Some (Z.of_nat f) /\ nth_error (k_face (f_conns r)) p = Some (Z.of_nat f) /\
       nth_error (k_nv (f_conns r)) p = Some (length l)) /\
  exists num, (forall c i, c < ng -> i < nsides cnv c -> num c i < f_num r) /\
    (forall f, f < f_num r -> exists c i, c < ng /\ i < nsides cnv c /\ num c i = f) /\
    (forall c i c' i', c < ng -> i < nsides cnv c -> c' < ng -> i' < nsides cnv c' ->
       (num c i = num c' i' <-> (c = c' /\ i = i') \/ ((In (c, c') prs \/ In (c', c) prs) /\ common cnv cv c i c' i'))) /\
    (forall p c d i j, nth_error prs p = Some (c, d) -> common cnv cv c i d j -> nth_error (k_id (f_conns r)) p = Some (Z.of_nat (num c i))).
Proof. exact faces_ok. Qed.

(** The code as it is uses freed memory for every conforming mesh in which a local cell
    has a neighbour with a larger number: UpdateMapsC2F_F2C_F2V frees face_to_cell and
    keeps the new table to itself (tdymeshcustom.c:744-745), and CreateInternalFaces
    reads the freed one. *)
Theorem C92_memory_refuted : forall nl ng cnv cv nbs, conforming nl ng cnv cv nbs ->
  forall c d, c < nl -> c < d -> d < ng -> adjacent cnv cv c d -> setup_faces cnv cv nbs nl ng false = UB.
Proof. exact freed_ub. Qed.

(** The tables handed on (f_cells: cell_to_face, f_verts: face_to_vertex) in full: the entry of every side of every cell
    is the number of a face whose column runs through the vertices of this side, or of
    the common side of a smaller local cell; triangles have -1 as fourth vertex, and
    entries beyond the sides of a cell are -1. *)
Theorem C92_tables : forall nl ng cnv cv nbs, conforming nl ng cnv cv nbs ->
  exists r, setup_faces cnv cv nbs nl ng true = Ok r /\
  forall c i, c < ng -> i < 6 ->
  (i < nsides cnv c /\ exists f l b k, f < f_num r /\ b < ng /\ i < nsides cnv c /\ k < nsides cnv b /\
     ((b = c /\ k = i) \/ (b < nl /\ b < c /\ common cnv cv b k c i)) /\
     (exists row, nth_error (f_cells r) i = Some row /\ nth_error row c = Some (Z.of_nat f)) /\
     rotation (side cnv cv b k) l /\ column (f_verts r) f l /\
     (length l = 4 \/ (length l = 3 /\ exists row, nth_error (f_verts r) 3 = Some row /\ nth_error row f = Some (-1)%Z))) \/
  (nsides cnv c <= i /\ exists row, nth_error (f_cells r) i = Some row /\ nth_error row c = Some (-1)%Z).
Proof. exact tables_ok. Qed.

(** A hexahedron (cell 0), a pyramid on top of it (cell 1) and a wedge beside it (cell
    2, a ghost) form a conforming mesh.  14 faces are left of 16 sides; the two
    connections have the faces 5 (vertices 4, 5, 6, 7) and 1 (vertices 1, 2, 6, 5). *)
Example C92_example : conforming 2 3 ex_cnv ex_cv ex_nbs /\
  setup_faces ex_cnv ex_cv ex_nbs 2 3 false = UB /\
  exists r, setup_faces ex_cnv ex_cv ex_nbs 2 3 true = Ok r /\ f_num r = 14 /\
    f_conns r = mkConns [0; 1; 0; 2]%Z [5; 1]%Z [4; 4] [5; 1]%Z 2 /\
    map (fun row => nth 5 row (-1)%Z) (f_verts r) = [4; 5; 6; 7]%Z /\ map (fun row => nth 1 row (-1)%Z) (f_verts r) = [1; 2; 6; 5]%Z.
Proof.
  split; [exact ex_conforming|]. split; [vm_compute; reflexivity|]. eexists. split; [vm_compute; reflexivity|]. repeat split; vm_compute; reflexivity.
Qed.

Print Assumptions C92_faces_partial.
Print Assumptions C92_memory_refuted.
Print Assumptions C92_tables.
Print Assumptions C92_example.
