(** C70-C72: the connectivity tables of the mesh. *)
From Coq Require Import List ZArith Arith.
From Verif Require Import Prelude Arrays Mesh SpecMesh MeshProofs MeshConnProofs MeshFaceProofs MeshTableProofs MeshExample.
Import ListNotations.
Local Open Scope nat_scope.

(** ** C70: compressed format *)

Theorem C70_compressed : forall (A : Type) (blank : A) d (L : list (list A)) ids off,
  0 < length L -> length ids = length L * d -> rows d ids L ->
  length off = S (length L) -> (forall k, k < length L -> nth_error off k = Some (Z.of_nat (k * d))) ->
  exists off' ids', convert blank (length L) d true (map (@length A) L) off ids = Ok (off', ids') /\
    ids' = concat L ++ repeat blank (length ids - length (concat L)) /\
    forall i l, nth_error L i = Some l -> get_ids off' ids' i = Ok l.
Proof. exact compressed. Qed.
Print Assumptions C70_compressed.

Theorem C70_shared_offsets : forall (A : Type) (blank : A) n d num (Ls : list (list (list A))) arrays off,
  0 < n -> Ls <> [] -> length off = S n -> (forall k, k < n -> nth_error off k = Some (Z.of_nat (k * d))) ->
  Forall2 (fun L ids => length L = n /\ map (@length A) L = num /\ length ids = n * d /\ rows d ids L) Ls arrays ->
  exists off' arrays', convert_all blank n d num off arrays = Ok (off', arrays') /\
    Forall2 (fun L ids' => forall i l, nth_error L i = Some l -> get_ids off' ids' i = Ok l) Ls arrays'.
Proof. exact shared_offsets. Qed.
Print Assumptions C70_shared_offsets.

(** Rows of three entries; two, none, three and one of them used. *)
Example C70_example :
  (do off <- offsets 4 3; convert (-1)%Z 4 3 true [2; 0; 3; 1] off [5; 6; -1; -1; -1; -1; 7; 8; 9; 4; -1; -1]%Z) =
    Ok ([0; 2; 2; 5; 6]%Z, [5; 6; 7; 8; 9; 4; -1; -1; -1; -1; -1; -1]%Z) /\
  get_ids [0; 2; 2; 5; 6]%Z [5; 6; 7; 8; 9; 4; -1; -1; -1; -1; -1; -1]%Z 2 = Ok [7; 8; 9]%Z.
Proof. split; vm_compute; reflexivity. Qed.

(** On a process without elements the conversion reads outside its arrays. *)
Theorem C70_no_elements_refuted : forall (A : Type) (blank : A) d update off ids,
  convert blank 0 d update [] off ids = UB.
Proof. reflexivity. Qed.
Print Assumptions C70_no_elements_refuted.

(** ** C71: connectivity *)

Theorem C71_cells : forall t z cells, numbered t z -> uniform t z cells -> 0 < n_cell z ->
  exists s vo vi eo ei fo fi, cell_connectivity t z cells = Ok s /\
    cell_table (n_cell z) (d_cv z) (c_vert s) = Ok (vo, vi) /\
    cell_table (n_cell z) (d_ce z) (c_edge s) = Ok (eo, ei) /\
    cell_table (n_cell z) (d_cf z) (c_face s) = Ok (fo, fi) /\
    forall c cl, nth_error cells c = Some cl ->
      get_ids vo vi c = Ok (vertices_of t cl) /\ get_ids eo ei c = Ok (edges_of t cl) /\ get_ids fo fi c = Ok (faces_of t cl).
Proof. exact cells_tables. Qed.
Print Assumptions C71_cells.

Theorem C71_vertices : forall t z cells, numbered t z -> uniform t z cells -> 0 < n_vert z ->
  exists s co ci so si, cell_connectivity t z cells = Ok s /\
    vertex_cell_table z s = Ok (co, ci) /\ vertex_subcell_table z s = Ok (so, si) /\
    forall v, v < n_vert z -> exists l : list (nat * nat),
      get_ids co ci v = Ok (zs (map fst l)) /\ get_ids so si v = Ok (zs (map snd l)) /\ NoDup l /\
      forall c k, In (c, k) l <-> exists cl, nth_error cells c = Some cl /\ nth_error (vertices_of t cl) k = Some (Z.of_nat v).
Proof. exact vertices_tables. Qed.
Print Assumptions C71_vertices.

Theorem C71_faces : forall t z cells, numbered t z -> uniform t z cells ->
  exists s, cell_connectivity t z cells = Ok s /\
    forall f, f < n_face z -> exists l : list (nat * nat),
      NoDup l /\ (forall c k, In (c, k) l <-> exists cl, nth_error cells c = Some cl /\ nth_error (faces_of t cl) k = Some (Z.of_nat f)) /\
      nth_error (f_ncell s) f = Some (Nat.min 2 (length l)) /\
      forall j, j < 2 -> nth_error (f_cell s) (f * d_fc z + j) = Some (nth j (zs (map fst l)) (-1)%Z).
Proof. exact face_cells. Qed.
Print Assumptions C71_faces.

(** The number of entries reserved for the cells around a vertex is the largest
    number of cells around one. *)
Theorem C71_room : forall lo hi stars, (forall c, In c stars -> stored c) ->
  exists n, most lo hi stars = Ok n /\ (forall c, In c stars -> length (members lo hi (points c)) <= n) /\
    (n = 0 \/ exists c, In c stars /\ n = length (members lo hi (points c))).
Proof. exact most_ok. Qed.
Print Assumptions C71_room.

Example C71_example :
  numbered ex_strata ex_sizes /\ uniform ex_strata ex_sizes ex_cells /\
  most 0 4 ex_stars = Ok 4 /\ most 22 42 ex_stars = Ok 8 /\
  exists s, cell_connectivity ex_strata ex_sizes ex_cells = Ok s /\
    (do t <- cell_table 4 8 (c_vert s); get_ids (fst t) (snd t) 3) = Ok [4; 7; 8; 5; 13; 14; 17; 16]%Z /\
    (do t <- vertex_cell_table ex_sizes s; get_ids (fst t) (snd t) 4) = Ok [0; 1; 2; 3]%Z /\
    (do t <- vertex_subcell_table ex_sizes s; get_ids (fst t) (snd t) 4) = Ok [2; 1; 3; 0]%Z /\
    (do t <- vertex_cell_table ex_sizes s; get_ids (fst t) (snd t) 14) = Ok [1; 3]%Z.
Proof. exact connectivity_example. Qed.

(** The cells of an edge are not listed: only two entries are ever filled. *)
Theorem C71_edges_refuted :
  exists s, cell_connectivity ex_strata ex_sizes ex_cells = Ok s /\
    (forall c cl, nth_error ex_cells c = Some cl -> In 11%Z (edges_of ex_strata cl)) /\
    firstn 4 (skipn (11 * d_ec ex_sizes) (e_cell s)) = [0; 1; -1; -1]%Z.
Proof. exact edges_refuted. Qed.
Print Assumptions C71_edges_refuted.

(** ** C72: the tables of the faces *)

Theorem C72_face_vertices : forall t z faces, numbered t z -> fitting t z faces -> 0 < n_face z -> 0 < n_vert z ->
  exists s fo fi vo vf vs bo bi, face_connectivity t z faces = Ok s /\
    face_vertex_table z s = Ok (fo, fi) /\ vertex_face_tables z s = Ok (vo, [vf; vs]) /\ vertex_boundary_table z s = Ok (bo, bi) /\
    (forall f x, nth_error faces f = Some x -> get_ids fo fi f = Ok (vertices_of t (fst x))) /\
    forall v, v < n_vert z -> exists l b : list (nat * nat),
      get_ids vo vf v = Ok (zs (map fst l)) /\ get_ids vo vs v = Ok (zs (map snd l)) /\ NoDup l /\
      (forall f k, In (f, k) l <-> exists x, nth_error faces f = Some x /\ nth_error (vertices_of t (fst x)) k = Some (Z.of_nat v)) /\
      get_ids bo bi v = Ok (zs (map fst b)) /\ NoDup b /\
      (forall f k, In (f, k) b <-> exists x, nth_error faces f = Some x /\ snd x <> 2 /\ nth_error (vertices_of t (fst x)) k = Some (Z.of_nat v)).
Proof. exact faces_tables. Qed.
Print Assumptions C72_face_vertices.

Example C72_example : fitting ex_strata ex_sizes ex_faces /\
  exists s, face_connectivity ex_strata ex_sizes ex_faces = Ok s /\
    (do t <- face_vertex_table ex_sizes s; get_ids (fst t) (snd t) 9) = Ok [5; 4; 13; 14]%Z /\
    (do t <- vertex_face_tables ex_sizes s; get_ids (fst t) (nth 0 (snd t) []) 4) = Ok [0; 3; 4; 6; 9; 11; 14; 16]%Z /\
    (do t <- vertex_face_tables ex_sizes s; get_ids (fst t) (nth 1 (snd t) []) 4) = Ok [2; 0; 1; 1; 1; 3; 0; 0]%Z /\
    (do t <- vertex_boundary_table ex_sizes s; get_ids (fst t) (snd t) 4) = Ok [0; 6; 11; 16]%Z.
Proof. exact faces_example. Qed.

(** TDyMeshGetFaceCells and TDyMeshGetFaceNumCells: what they give as the number of
    cells of a face. *)
Theorem C72_cell_count_partial : forall z s f, f < n_face z -> d_fc z = 2 ->
  exists off, face_cell_table z s = Ok (off, f_cell s) /\
    get off f = Ok (Z.of_nat (f * 2), if S f =? n_face z then (-1 - 2 * Z.of_nat f)%Z else 2%Z).
Proof. exact cell_count. Qed.
Print Assumptions C72_cell_count_partial.

(** It is not the number of cells of the face: faces 0 and 19 are boundary faces and
    have one cell each, the functions say 2 and -39. *)
Theorem C72_cell_count_refuted :
  exists s off, cell_connectivity ex_strata ex_sizes ex_cells = Ok s /\ face_cell_table ex_sizes s = Ok (off, f_cell s) /\
    nth_error (f_ncell s) 0 = Some 1 /\ get off 0 = Ok (0, 2)%Z /\
    nth_error (f_ncell s) 19 = Some 1 /\ get off 19 = Ok (38, -39)%Z.
Proof. exact count_refuted. Qed.
Print Assumptions C72_cell_count_refuted.
