(** Model of the ownership flags and the numbers of the boundary faces of a mesh
    made from a DMPlex, and of the order of the faces around a vertex
    (src/fv/share/tdymeshplex.c).

    Arrays are lists and the tables are those of [Mesh]: the entries of row i start
    at offset[i].  c_start is 0, as in every DMPlex.  [gref] lists what
    DMPlexGetPointGlobal returns for the cells.  IdentifyLocalEdges is not
    modelled: nothing reads edges->is_local. *)
From Coq Require Import List ZArith Bool Arith.
From Verif Require Import Prelude Arrays Mesh.
Import ListNotations.
Local Open Scope Z_scope.

(** ** IdentifyLocalCells, tdymeshplex.c:277-313 *)

(** cells->is_local, cells->global_id and num_cells_local. *)
Definition identify_cell (gref : list Z) (c : nat) (s : list bool * list Z * nat) : outcome (list bool * list Z * nat) :=
  let '(loc, gid, n) := s in
  do g <- rd gref c;
  if 0 <=? g then
    do loc <- wr loc c true;
    do gid <- wr gid c g;
    Ok (loc, gid, S n)
  else
    do loc <- wr loc c false;
    do gid <- wr gid c (- g - 1);
    Ok (loc, gid, n).
Definition identify_cells (gref : list Z) (loc : list bool) (gid : list Z) : outcome (list bool * list Z * nat) :=
  for_ (length gref) (identify_cell gref) (loc, gid, 0%nat).

(** ** IdentifyLocalVertices, lines 315-339 *)

(** [icell >= 0 && cells->is_local[icell]] *)
Definition is_owned (loc : list bool) (icell : Z) : outcome bool :=
  if 0 <=? icell then rdz loc icell else Ok false.
(** [num], [off], [ids]: num_internal_cells, internal_cell_offset and
    internal_cell_ids; [flags]: vertices->is_local. *)
Definition identify_vertex (loc : list bool) (num : list nat) (off ids : list Z) (v : nat) (flags : list bool) : outcome (list bool) :=
  do n <- rd num v;
  for_ n (fun c flags =>
    do o <- rd off v;
    do icell <- rdz ids (o + Z.of_nat c);
    do b <- is_owned loc icell;
    if b then wr flags v true else Ok flags) flags.
Definition identify_vertices (n : nat) (loc : list bool) (num : list nat) (off ids : list Z) (flags : list bool) : outcome (list bool) :=
  for_ n (identify_vertex loc num off ids) flags.

(** ** IdentifyLocalFaces, lines 395-443 *)

(** faces->cell_ids, faces->is_local and mesh->num_boundary_faces. *)
Record numbering := mkNumbering { b_ids : list Z; b_flags : list bool; b_count : nat }.
Definition identify_face (loc internal : list bool) (off : list Z) (f : nat) (s : numbering) : outcome numbering :=
  do o <- rd off f;
  do inner <- rd internal f;
  if negb inner then
    let k := S (b_count s) in
    do a <- rdz (b_ids s) (o + 0);
    do r <- (if 0 <=? a
             then do ids <- wrz (b_ids s) (o + 1) (- Z.of_nat k); Ok (a, ids)
             else do b <- rdz (b_ids s) (o + 1); do ids <- wrz (b_ids s) (o + 0) (- Z.of_nat k); Ok (b, ids));
    do mine <- is_owned loc (fst r);
    do flags <- (if mine : bool then wr (b_flags s) f true else Ok (b_flags s));
    Ok (mkNumbering (snd r) flags k)
  else
    do a <- rdz (b_ids s) (o + 0);
    do b <- rdz (b_ids s) (o + 1);
    do la <- rdz loc a;
    (* || *)
    do mine <- (if la : bool then Ok true else rdz loc b);
    do flags <- (if mine : bool then wr (b_flags s) f true else Ok (b_flags s));
    Ok (mkNumbering (b_ids s) flags (b_count s)).
Definition identify_faces (n : nat) (loc internal : list bool) (off ids : list Z) (flags : list bool) : outcome numbering :=
  for_ n (identify_face loc internal off) (mkNumbering ids flags 0).

(** ** UpdateFaceOrderAroundAVertex, lines 1266-1321 *)

(** Lines 1292-1300 and 1304-1312: the faces with [k] cells are appended to
    face_ids_sorted and subface_ids_sorted (count is the length of the list). *)
Definition sort_pass (ncell : list nat) (fids sids : list Z) (o : Z) (n k : nat) (sorted : list (Z * Z)) : outcome (list (Z * Z)) :=
  for_ n (fun i sorted =>
    do f <- rdz fids (o + Z.of_nat i);
    do s <- rdz sids (o + Z.of_nat i);
    do m <- rdz ncell f;
    Ok (if (m =? k)%nat then sorted ++ [(f, s)] else sorted)%list) sorted.
(** The entries of the sorted arrays that were not assigned are indeterminate. *)
Definition order_faces (ncell : list nat) (off : list Z) (v : nat) (t : list Z * list Z) : outcome (list Z * list Z) :=
  let '(fids, sids) := t in
  do r <- get off v;
  let o := fst r in
  let n := Z.to_nat (snd r) in
  do sorted <- sort_pass ncell fids sids o n 2 [];
  do sorted <- sort_pass ncell fids sids o n 1 sorted;
  for_ n (fun i t =>
    do p <- rd sorted i;
    do fids <- wrz (fst t) (o + Z.of_nat i) (fst p);
    do sids <- wrz (snd t) (o + Z.of_nat i) (snd p);
    Ok (fids, sids)) (fids, sids).
Definition order_all (n : nat) (ncell : list nat) (off fids sids : list Z) : outcome (list Z * list Z) :=
  for_ n (order_faces ncell off) (fids, sids).
