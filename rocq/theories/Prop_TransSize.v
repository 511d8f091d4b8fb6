(** C111: the size of the matrix of transmissibilities and of the vector of pressures. *)
From Coq Require Import List ZArith Bool Arith Lia.
From Verif Require Import Prelude Arrays Mesh Owners SpecOwners TransSize SpecTransSize TransSizeProofs TransSizeExamples.
Import ListNotations.
Local Open Scope nat_scope.

(** The counts of faces: local and non-local ones make up all faces, and the flags are
    counted one by one. *)
Theorem C111_counts : forall n s internal, length (b_flags s) = n -> length internal = n ->
  exists a b c, NumberOfLocalFaces n s = Ok a /\ NumberOfNonLocalFaces n s = Ok b /\ NumberOfNonInternalFaces n internal = Ok c /\
    a + b = n /\ a = count_occ Bool.bool_dec (b_flags s) true /\ c = count_occ Bool.bool_dec internal false.
Proof. exact counts. Qed.

(** A process whose ghost cells are not more than its faces without an owned cell: the
    columns of all cells and boundary faces are accepted by the matrix, different boundary
    faces have different columns, none of them that of a cell, and the boundary pressures
    are stored at their columns without touching those of the cells.  Missing: the other
    processes, see C111_room_refuted. *)
Theorem C111_room_partial : forall cells gref loc0 gid0 n internal off ids k,
  reported cells gref -> length loc0 = length cells -> length gid0 = length cells -> faces_known n (length cells) internal off ids ->
  foreign_count n (map fst cells) ids k -> ghosts cells <= k ->
  exists loc gid nl s nc, identify_cells gref loc0 gid0 = Ok (loc, gid, nl) /\ identify_faces n loc internal off ids (repeat false n) = Ok s /\
    columns nl n s internal = Ok nc /\
    (forall c, c < length cells -> set_value nc (cell_column c) = Ok tt) /\
    (forall f, nth_error internal f = Some false -> exists col, boundary_column (length cells) off s f = Ok col /\
       (Z.of_nat (length cells) <= col)%Z /\ set_value nc col = Ok tt) /\
    (forall f g col, nth_error internal f = Some false -> nth_error internal g = Some false ->
       boundary_column (length cells) off s f = Ok col -> boundary_column (length cells) off s g = Ok col -> f = g) /\
    forall A (v : nat -> A) p, length p = nc -> exists p', store_boundary n (length cells) internal off s v p = Ok p' /\ length p' = nc /\
      (forall c, c < length cells -> nth_error p' c = nth_error p c) /\
      forall f col, nth_error internal f = Some false -> boundary_column (length cells) off s f = Ok col -> nth_error p' (Z.to_nat col) = Some (v f).
Proof. exact room. Qed.

(** One process: there are no ghost cells and no faces without an owned cell, so that
    C111_room_partial applies to every mesh. *)
Theorem C111_one_process : forall cells n internal off ids, faces_known n (length cells) internal off ids -> (forall c, In c cells -> fst c = true) ->
  ghosts cells = 0 /\ foreign_count n (map fst cells) ids 0.
Proof. exact serial. Qed.

(** Many processes: C111_room_partial applies when every ghost cell has two faces without
    an owned cell. *)
Theorem C111_two_faces : forall (cells : list (bool * Z)) n ids k,
  foreign_count n (map fst cells) ids k ->
  (forall c, nth_error (map fst cells) c = Some false -> exists f g, f <> g /\ foreign_face n (map fst cells) ids f /\ foreign_face n (map fst cells) ids g /\
     on_face ids (Z.of_nat c) f /\ on_face ids (Z.of_nat c) g) ->
  ghosts cells <= k.
Proof. exact two_faces. Qed.

(** In every other case, as soon as there is a boundary face, the matrix refuses a column
    and the boundary pressures are stored outside the vector. *)
Theorem C111_room_refuted : forall cells gref loc0 gid0 n internal off ids k,
  reported cells gref -> length loc0 = length cells -> length gid0 = length cells -> faces_known n (length cells) internal off ids ->
  foreign_count n (map fst cells) ids k -> k < ghosts cells -> In false internal ->
  exists loc gid nl s nc, identify_cells gref loc0 gid0 = Ok (loc, gid, nl) /\ identify_faces n loc internal off ids (repeat false n) = Ok s /\
    columns nl n s internal = Ok nc /\
    (exists f col, nth_error internal f = Some false /\ boundary_column (length cells) off s f = Ok col /\ set_value nc col = Err) /\
    forall A (v : nat -> A) p, length p = nc -> store_boundary n (length cells) internal off s v p = UB.
Proof. exact no_room. Qed.

(** Such a case: a block of 3 x 3 x 3 cells, of which another process owns the one in the
    middle.  All six faces of the ghost cell have an owned cell. *)
Theorem C111_enclosed_refuted :
  reported block_cells block_gref /\ faces_known 108 (length block_cells) block_internal block_off block_ids /\
  foreign_count 108 (map fst block_cells) block_ids 0 /\ ghosts block_cells = 1 /\ In false block_internal.
Proof. split; [exact block_reported|]. split; [exact block_known|]. split; [exact block_foreign|]. split; [reflexivity|]. left. reflexivity. Qed.

(** Two cells in a row, the second a ghost cell: five faces have no owned cell, sixteen
    columns are allocated where twelve are used. *)
Definition row_internal : list bool := [true; false; false; false; false; false; false; false; false; false; false].
Definition row_ids : list Z := [0; 1; 0; -1; 0; -1; 0; -1; 0; -1; 0; -1; 1; -1; 1; -1; 1; -1; 1; -1; 1; -1]%Z.
Definition row_off : list Z := map (fun f => Z.of_nat (2 * f)) (seq 0 12).
Example C111_example :
  (do r <- identify_cells [7; -4]%Z [false; false] [0; 0]%Z; let '(loc, gid, nl) := r in
   do s <- identify_faces 11 loc row_internal row_off row_ids (repeat false 11);
   do a <- NumberOfLocalFaces 11 s; do b <- NumberOfNonLocalFaces 11 s; do c <- NumberOfNonInternalFaces 11 row_internal;
   do nc <- columns nl 11 s row_internal;
   do p <- store_boundary 11 2 row_internal row_off s (fun f => f) (repeat 99 nc); Ok (a, b, c, nc, p))
  = Ok (6, 5, 10, 16, [99; 99; 1; 2; 3; 4; 5; 6; 7; 8; 9; 10; 99; 99; 99; 99]).
Proof. reflexivity. Qed.
Example C111_block_example :
  (do r <- identify_cells block_gref (repeat false 27) (repeat 0%Z 27); let '(loc, gid, nl) := r in
   do s <- identify_faces 108 loc block_internal block_off block_ids (repeat false 108);
   do nc <- columns nl 108 s block_internal; Ok (nl, b_count s, nc)) = Ok (26, 54, 80).
Proof. vm_compute. reflexivity. Qed.

Print Assumptions C111_counts.
Print Assumptions C111_room_partial.
Print Assumptions C111_one_process.
Print Assumptions C111_two_faces.
Print Assumptions C111_room_refuted.
Print Assumptions C111_enclosed_refuted.
