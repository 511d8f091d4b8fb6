(** Model of the table of closures of the mesh points (src/tdyutils.c:7-236) and of the
    sizes that the mesh set-up derives from it (src/fv/share/tdymeshplex.c:3725-3755,
    src/fv/share/tdymesh.c:21-70, 90-150, 320-751).

    A closure is the list of points DMPlexGetTransitiveClosure gives, each with its
    orientation.  The table belongs to the caller; [freed] says that its memory has been
    given back.  Error codes of PETSc: PETSC_ERR_SUP is 56, PETSC_ERR_USER is 83. *)
From Coq Require Import List ZArith Bool Arith.
From Verif Require Import Prelude Arrays.
Import ListNotations.
Local Open Scope Z_scope.

(** The mesh: the points of each kind are numbered from start to end (excluded); [cone] is the
    closure of a point downwards, [star] upwards. *)
Record plex := mkPlex {
  pend : nat; cEnd : nat; fStart : nat; fEnd : nat; eStart : nat; eEnd : nat; vStart : nat; vEnd : nat;
  cone : nat -> list (Z * Z); star : nat -> list (Z * Z)
}.
Definition flat (p : list (Z * Z)) : list Z := flat_map (fun q => [fst q; snd q]) p.

Record table := mkTable { freed : bool; csize : list Z; rows : list (list Z); room : nat }.

(** Increase_Closure_Array, lines 7-42: everything is copied to and fro, the caller's
    array is freed, and the new one is known only to the parameter of the function. *)
Definition increase (st : table) (n : nat) : outcome table :=
  if freed st then UB else Ok (mkTable true (csize st) (rows st) n).

(** One pass of the loop of TDySaveClosures_Elemnts, lines 57-69. *)
Definition save (e : nat) (p : list (Z * Z)) (st : table) : outcome table :=
  do cs <- wr (csize st) e (Z.of_nat (length p));
  let st := mkTable (freed st) cs (rows st) (room st) in
  do st <- (if (room st <? length p)%nat then increase st (2 * length p) else Ok st);
  if freed st then (if (length p =? 0)%nat then Ok st else UB)
  else
    do r <- rd (rows st) e;
    do r <- for_ (2 * length p) (fun i r => do x <- rd (flat p) i; wr r i x) r;
    do rs <- wr (rows st) e r;
    Ok (mkTable (freed st) (csize st) rs (room st)).
Definition save_range (start stop : nat) (clos : nat -> list (Z * Z)) (st : table) : outcome table :=
  for_ (stop - start) (fun k => save (start + k) (clos (start + k)%nat)) st.
(** TDySaveClosures, lines 125-140, after the allocation tdymeshplex.c:3725-3727. *)
Definition SaveClosures (dm : plex) : outcome table :=
  let max := (27 * 4 * 4)%nat in
  let st := mkTable false (repeat (-1) (pend dm)) (repeat (repeat (-1) (2 * max)) (pend dm)) max in
  do st <- save_range 0 (cEnd dm) (cone dm) st;
  do st <- save_range (vStart dm) (vEnd dm) (star dm) st;
  save_range (fStart dm) (fEnd dm) (cone dm) st.

(** The number of points of a kind in the closure of a point, lines 154-157, 178-181. *)
Definition within (x : Z) (start stop : nat) : bool := (Z.of_nat start <=? x) && (x <? Z.of_nat stop).
Definition count_points (st : table) (e start stop : nat) : outcome nat :=
  if freed st then UB
  else
    do n <- rd (csize st) e;
    for_ (Z.to_nat n) (fun k q => do r <- rd (rows st) e; do x <- rd r (2 * k); Ok (if within x start stop then S q else q)) 0%nat.

(** TDyGetNumberOfCellVerticesWithClosures, lines 143-163: SETERRQ returns the error code
    from a function that returns the number. *)
Definition ERR_SUP := 56.
Definition ERR_USER := 83.
Fixpoint cell_vertices_from (dm : plex) (st : table) (fuel c : nat) (nq : Z) : outcome Z :=
  match fuel with
  | O => Ok nq
  | S fuel =>
    do q <- count_points st c (vStart dm) (vEnd dm);
    let nq := if nq =? -1 then Z.of_nat q else nq in
    if nq =? Z.of_nat q then cell_vertices_from dm st fuel (S c) nq else Ok ERR_SUP
  end.
Definition NumberOfCellVertices (dm : plex) (st : table) : outcome Z := cell_vertices_from dm st (cEnd dm) 0 (-1).

(** TDyMaxNumOfAElmTypeSharingOtherElmType and its three uses, lines 166-236. *)
Definition MaxNum (st : table) (aStart aEnd oStart oEnd : nat) : outcome nat :=
  for_ (aEnd - aStart) (fun k result => do n <- count_points st (aStart + k) oStart oEnd; Ok (Nat.max result n)) 0%nat.
Definition MaxCellsSharingAVertex dm st := MaxNum st (vStart dm) (vEnd dm) 0 (cEnd dm).
Definition MaxEdgesSharingAVertex dm st := MaxNum st (vStart dm) (vEnd dm) (eStart dm) (eEnd dm).
Definition MaxFacesSharingAVertex dm st := MaxNum st (vStart dm) (vEnd dm) (fStart dm) (fEnd dm).

(** tdymesh.c:324-349: the types are 0, 1, 2, 3; the error code comes back as a type. *)
Definition GetCellType (n : Z) : Z := if n =? 4 then 0 else if n =? 5 then 1 else if n =? 6 then 2 else if n =? 8 then 3 else ERR_USER.
Definition by_type (t a b c d : Z) : Z := if t =? 0 then a else if t =? 1 then b else if t =? 2 then c else if t =? 3 then d else ERR_USER.
Definition GetNumVertices (t : Z) : Z := by_type t 4 5 6 8.                    (* 355-376 *)
Definition GetNumEdges (t : Z) : Z := by_type t 6 8 9 12.                      (* 583-604 *)
Definition GetNumNeighbors (t : Z) : Z := by_type t 4 5 5 6.                   (* 610-631 *)
Definition GetNumFaces (t : Z) : Z := by_type t 4 5 5 6.                       (* 637-658 *)
Definition GetMaxFaceVertices (t : Z) : Z := if (t =? 2) || (t =? 3) then 4 else ERR_USER.  (* 436-451 *)
Definition GetMaxFaceEdges (t : Z) : Z := by_type t 3 4 4 4.                   (* 556-577 *)
(** 664-679, 685-715: SUBCELL_HEX_TYPE is 0. *)
Definition GetSubcellType (t : Z) : Z := if (t =? 2) || (t =? 3) then 0 else ERR_USER.
Definition GetNumSubcells (s : Z) : Z := if s =? 0 then 8 else ERR_USER.
Definition GetNumNuVectors (s : Z) : Z := if s =? 0 then 3 else ERR_USER.

(** What the tables of cells, faces and sub-cells are allocated with,
    tdymeshplex.c:3731-3755 and 1111-1113: vertices, edges, neighbours and faces of each
    cell, vertices of each face, sub-cells of each cell and their faces. *)
Definition setup_sizes (dm : plex) (st : table) : outcome (list Z) :=
  do n <- NumberOfCellVertices dm st;
  let t := GetCellType n in
  let s := GetSubcellType t in
  Ok [GetNumVertices t; GetNumEdges t; GetNumNeighbors t; GetNumFaces t; GetMaxFaceVertices t; GetNumSubcells s; GetNumNuVectors s].
