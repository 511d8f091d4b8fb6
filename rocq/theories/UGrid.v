(** Model of the mesh redistribution in src/fv/share/tdyugrid.c and of the
    index sets and matrix layout in src/fv/share/tdyugdm.c.

    A mesh read from a PFLOTRAN file is packed, one fixed-length record per
    cell, into a distributed vector, moved to the processes chosen by the
    partitioner, and renumbered there.  Vector entries are doubles holding
    integers and are read back with a cast; they are modelled as integers
    (exact below 2^53).  PetscInt is unbounded.  PETSc calls are represented by
    what they are documented to do: [PetscSortIntWithPermutation] by a
    parameter [sort] that returns a sorting permutation, an AO by the list of
    application numbers in PETSc order, a VecScatter by the copy it performs. *)
From Coq Require Import List Arith ZArith Lia Bool.
From Verif Require Import Prelude Arrays.
Import ListNotations.
Local Open Scope Z_scope.

(** Array access with an index computed as an integer. *)
Definition rdz {A} (a : list A) (i : Z) : outcome A := if i <? 0 then UB else rd a (Z.to_nat i).
Definition wrz {A} (a : list A) (i : Z) (x : A) : outcome (list A) := if i <? 0 then UB else wr a (Z.to_nat i) x.

(** [a[count++] = x]. *)
Definition push (x : Z) (st : nat * list Z) : outcome (nat * list Z) :=
  let (c, v) := st in do v' <- wr v c x; Ok (S c, v').

(** The separators, tdyugrid.c:8-10. *)
Definition vertex_separator : Z := -777.
Definition dual_separator : Z := -888.
Definition cell_separator : Z := -999999.

(** Offsets in a record, TDyUGridCreateFromPFLOTRANMesh, tdyugrid.c:1178-1180. *)
Definition vertex_ids_offset : nat := 2.
Definition dual_offset (maxv : nat) : nat := (vertex_ids_offset + maxv + 1)%nat.
Definition stride_of (maxv maxd : nat) : nat := (dual_offset maxv + maxd + 1)%nat.

(** ** The number of vertices per cell

    DetermineMaxNumVerticesActivePerCell, tdyugrid.c:167-187, on one process
    (the MPI_MAX over processes is [active_all]).  The vertex numbers in
    [cell_vertices] have already been made 0-based (ReadPFLOTRANMeshFile,
    line 126), unused entries are -1. *)
Definition active_cell (maxv : nat) (row : list Z) : outcome nat :=
  for_ maxv (fun iv tmp => do x <- rd row iv; Ok (if 0 <? x then S tmp else tmp)) 0%nat.
Definition active (maxv : nat) (verts : list (list Z)) : outcome nat :=
  for_ (length verts) (fun ic act =>
    do row <- rd verts ic; do tmp <- active_cell maxv row; Ok (if (act <? tmp)%nat then tmp else act)) 0%nat.
Definition active_all (maxv : nat) (parts : list (list (list Z))) : outcome nat :=
  fold_left (fun a vs => do x <- a; do y <- active maxv vs; Ok (Nat.max x y)) parts (Ok 0%nat).

(** DetermineMaxNumDualCells, tdyugrid.c:275-307, on one process. *)
Definition max_dual (n : nat) (ia : list nat) : outcome nat :=
  for_ n (fun ic mx => do a <- rd ia ic; do b <- rd ia (S ic);
    Ok (if (mx <? b - a)%nat then (b - a)%nat else mx)) 0%nat.

(** ** Packing: PackNatOrderVector, tdyugrid.c:367-415 *)
Section pack.
Context (maxv maxd off : nat) (verts : list (list Z)) (ia : list nat) (ja : list Z).

Definition pack_cell (icell : nat) (st : nat * list Z) : outcome (nat * list Z) :=
  do st <- push (- Z.of_nat off - Z.of_nat icell - 1) st;
  do st <- push vertex_separator st;
  do st <- for_ maxv (fun iv st => do row <- rd verts icell; do x <- rd row iv; push (x + 1) st) st;
  do st <- push dual_separator st;
  do istart <- rd ia icell;
  do iend <- rd ia (S icell);
  let ncols := (iend - istart)%nat in
  do st <- for_ maxd (fun ic st =>
      if (ic <? ncols)%nat then do x <- rd ja (istart + ic); push (x + 1) st else push 0 st) st;
  push cell_separator st.

(** [v] is what VecGetArray returns before the loop: the length decides what
    may be written, the contents do not matter. *)
Definition pack (v : list Z) : outcome (list Z) :=
  do st <- for_ (length verts) pack_cell (0%nat, v); Ok (snd st).
End pack.

(** ** Moving the records

    PrePartNatOrder_To_PostPartNatOrder, tdyugrid.c:426-446, with the index set
    of CreateISNatOrderToPetscOrder, 317-336: record [c] of the vector before
    goes to record [num[c]] of the vector after, [num] being the numbering
    computed by ISPartitioningToNumbering. *)
Definition move_records (stride : nat) (num : list nat) (pre post : list Z) : outcome (list Z) :=
  for_ (length num) (fun c post =>
    for_ stride (fun j post =>
      do p <- rd num c; do x <- rd pre (c * stride + j); wr post (p * stride + j) x) post) post.

(** The part of a distributed vector that a process holds: [nl] records from
    record [off] on. *)
Definition slice (stride off nl : nat) (v : list Z) : list Z := firstn (nl * stride) (skipn (off * stride) v).

(** SaveNaturalCellIDs, tdyugrid.c:456-471. *)
Definition save_natural (stride nl : nat) (v : list Z) : outcome (list Z) :=
  for_ nl (fun ic a => do x <- rd v (ic * stride); wr a ic (- x - 1)) (repeat (-1) nl).

(** The AO made by CreateApplicationOrder, tdyugrid.c:479-499: position [k] of
    the list (over all processes) holds the natural number of the cell with
    PETSc number [k].  AOApplicationToPetsc maps numbers that are not in the
    ordering to -1. *)
Fixpoint index_from (k : Z) (ao : list Z) (x : Z) : Z :=
  match ao with [] => -1 | y :: ao => if y =? x then k else index_from (k + 1) ao x end.
Definition app_to_petsc (ao : list Z) (x : Z) : Z := index_from 0 ao x.
Definition petsc_to_app (ao : list Z) (k : nat) : Z := nth k ao (-1).

(** ** To PETSc numbers: CellAndDualIDs_FromNatOrder_To_GlobalOrder, 508-564 *)
Section global.
Context (stride doff nl maxd : nat).
Definition at_slot (icell idual : nat) : nat := (icell * stride + idual + doff)%nat.

Definition count_ids (v : list Z) : outcome nat :=
  for_ nl (fun ic c =>
    for_ maxd (fun id c => do d <- rd v (at_slot ic id); Ok (if 0 <? d then S c else c)) (S c)) 0%nat.

Definition collect_ids (v nat_ids : list Z) (n : nat) : outcome (list Z) :=
  do st <- for_ nl (fun ic st =>
      do x <- rd nat_ids ic;
      do st <- push x st;
      for_ maxd (fun id st =>
        do d <- rd v (at_slot ic id); if 0 <? d then push (d - 1) st else Ok st) st) (0%nat, repeat 0 n);
  Ok (snd st).

(** The state of the third loop: next unread id, [cell_ids_petsc], vector. *)
Definition place_ids (ids v : list Z) : outcome (nat * list Z * list Z) :=
  for_ nl (fun ic st =>
    let '(c, petsc, v) := st in
    do x <- rd ids c;
    do petsc <- wr petsc ic x;
    do v <- wr v (ic * stride)%nat (x + 1);
    for_ maxd (fun id st =>
      let '(c, petsc, v) := st in
      do d <- rd v (at_slot ic id);
      if 0 <? d then
        do x <- rd ids c; do v <- wr v (at_slot ic id) (x + 1); Ok (S c, petsc, v)
      else Ok st) (S c, petsc, v)) (0%nat, repeat (-1) nl, v).

(** Returns [cell_ids_petsc] and the renumbered vector (a copy, line 837, of
    the one the ids are collected from). *)
Definition to_global (ao nat_ids v : list Z) : outcome (list Z * list Z) :=
  do n <- count_ids v;
  do ids <- collect_ids v nat_ids n;
  let ids := map (app_to_petsc ao) ids in
  do st <- place_ids ids v;
  let '(_, petsc, v) := st in Ok (petsc, v).
End global.

(** ** To local numbers: DualIDs_FromPetscOrder_To_LocalOrder, 576-706 *)
Section local.
Context (sort : list Z -> list nat).
Context (stride doff nl maxd : nat) (off : Z).
Notation slot := (at_slot stride doff).

Definition is_ghost (d : Z) : bool := (d <=? off) || (off + Z.of_nat nl <? d).

Definition count_ghosts (v : list Z) : outcome nat :=
  for_ nl (fun ic c =>
    for_ maxd (fun id c =>
      do d <- rd v (slot ic id);
      Ok (if 0 <? d then (if is_ghost d then S c else c) else c)) c) 0%nat.

Definition collect_ghosts (n : nat) (v : list Z) : outcome (nat * list Z * list Z) :=
  for_ nl (fun ic st =>
    for_ maxd (fun id st =>
      let '(c, a1, v) := st in
      do d <- rd v (slot ic id);
      if 0 <? d then
        if is_ghost d then
          do a1 <- wr a1 c d; do v <- wr v (slot ic id) (- Z.of_nat (S c)); Ok (S c, a1, v)
        else
          do v <- wr v (slot ic id) (d - off); Ok (c, a1, v)
      else Ok st) st) (0%nat, repeat 0 n, v).

(** Lines 654-675: the distinct values in increasing order (IntArray3), the
    rank of each sorted position (IntArray4), the inverse of the sorting
    permutation (IntArray5). *)
Definition rank_step (a1 : list Z) (a2 : list nat) (ig : nat) (st : nat * list Z * list Z * list Z)
  : outcome (nat * list Z * list Z * list Z) :=
  let '(t, a3, a4, a5) := st in
  do idx <- rd a2 ig;
  do x3 <- rd a3 t;
  do x1 <- rd a1 idx;
  do ta <- (if x3 <? x1 then do a3 <- wr a3 (S t) x1; Ok (S t, a3) else Ok (t, a3));
  let (t, a3) := ta in
  do a4 <- wr a4 ig (Z.of_nat t);
  do a5 <- wr a5 idx (Z.of_nat ig);
  Ok (t, a3, a4, a5).
Definition rank_ghosts (a1 : list Z) : outcome (nat * list Z * list Z * list Z) :=
  let n := length a1 in
  let a2 := sort a1 in
  do idx <- rd a2 0%nat;
  do x <- rd a1 idx;
  do a3 <- wr (repeat (-1) n) 0%nat x;
  for_ n (rank_step a1 a2) (0%nat, a3, repeat (-1) n, repeat (-1) n).

Definition relabel (a4 a5 v : list Z) : outcome (list Z) :=
  for_ nl (fun ic v =>
    for_ maxd (fun id v =>
      do d <- rd v (slot ic id);
      if d <? 0 then
        do idx <- rdz a5 (- d - 1);
        do r <- rdz a4 idx;
        wr v (slot ic id) (r + Z.of_nat nl + 1)
      else Ok v) v) v.

(** Returns the ghost cells' PETSc numbers and the renumbered vector. *)
Definition to_local (v : list Z) : outcome (list Z * list Z) :=
  do n <- count_ghosts v;
  do st <- collect_ghosts n v;
  let '(c, a1, v) := st in
  if (0 <? c)%nat then
    let a1 := map (fun x => x - 1) a1 in
    do st <- rank_ghosts a1;
    let '(t, a3, a4, a5) := st in
    do v <- relabel a4 a5 v;
    Ok (firstn (S t) a3, v)
  else Ok ([], v).

(** UpdateNaturalCellIDs, 717-758.  [vn] is the vector before renumbering, [vl]
    after; the array is extended to owned plus ghost cells. *)
Definition update_natural (ng : nat) (nat_ids vn vl : list Z) : outcome (list Z) :=
  do a <- for_ nl (fun ic a => do x <- rd nat_ids ic; wr a ic x) (repeat (-1) (nl + ng));
  for_ nl (fun ic a =>
    for_ maxd (fun id a =>
      do d <- rd vl (slot ic id);
      if 0 <=? d then
        if Z.of_nat nl <? d then do x <- rd vn (slot ic id); wrz a (d - 1) (x - 1) else Ok a
      else Ok a) a) a.

(** DetermineNeigbhorsCellIDsInGhostedOrder, 768-804, for one cell: the row of
    neighbours ([TDyAllocate_IntegerArray_2D] fills it with -1) and the number of
    neighbours. *)
Definition neighbours (v : list Z) (ic : nat) : outcome (nat * list Z) :=
  for_ maxd (fun id (st : nat * list Z) =>
    let (c, row) := st in
    do d <- rd v (slot ic id);
    if 0 <? d then
      do row <- wr row id (if Z.of_nat nl <? d then - d + 1 else d - 1); Ok (S c, row)
    else Ok st) (0%nat, repeat (-1) maxd).
Definition all_neighbours (v : list Z) : outcome (list (nat * list Z)) :=
  for_ nl (fun ic (a : list (nat * list Z)) => do r <- neighbours v ic; wr a ic r) (repeat (0%nat, @nil Z) nl).
End local.

(** ** Local copies of the records: ScatterVecPetscOrderToLocalOrder, 863-923

    [v] is the whole distributed vector. *)
Definition gather_records (stride : nat) (ids : list Z) (v : list Z) : outcome (list Z) :=
  for_ (length ids) (fun ic a =>
    for_ stride (fun j a =>
      do g <- rd ids ic; do x <- rdz v (g * Z.of_nat stride + Z.of_nat j); wr a (ic * stride + j) x) a)
    (repeat 0 (length ids * stride)).

(** ** Vertices: ChangeVertexNatOrderToLocalOrder, 931-1035 *)
Section vertices.
Context (sort : list Z -> list nat).
Context (stride voff n maxv : nat).
(** [icell*stride + vertex_offset + ivertex]. *)
Notation slot := (fun icell ivertex => (icell * stride + voff + ivertex)%nat).

Definition count_vertices (v : list Z) : outcome nat :=
  for_ n (fun ic c =>
    for_ maxv (fun iv c => do d <- rd v (slot ic iv); Ok (if 0 <? d then S c else c)) c) 0%nat.

Definition collect_vertices (k : nat) (v : list Z) : outcome (nat * list Z * list Z) :=
  for_ n (fun ic st =>
    for_ maxv (fun iv st =>
      let '(c, a1, v) := st in
      do d <- rd v (slot ic iv);
      if 0 <? d then
        do a1 <- wr a1 c d; do v <- wr v (slot ic iv) (Z.of_nat (S c)); Ok (S c, a1, v)
      else Ok st) st) (0%nat, repeat 0 k, v).

Definition rank_vertex (a1 : list Z) (a2 : list nat) (iv : nat) (st : nat * list Z * list Z)
  : outcome (nat * list Z * list Z) :=
  let '(t, a3, a4) := st in
  do idx <- rd a2 iv;
  do x1 <- rd a1 idx;
  do x3 <- rd a3 t;
  do ta <- (if x3 <? x1 then do a3 <- wr a3 (S t) x1; Ok (S t, a3) else Ok (t, a3));
  let (t, a3) := ta in
  do a4 <- wr a4 idx (Z.of_nat t);
  Ok (t, a3, a4).
Definition rank_vertices (a1 : list Z) : outcome (nat * list Z * list Z) :=
  let k := length a1 in
  let a2 := sort a1 in
  do idx <- rd a2 0%nat;
  do x <- rd a1 idx;
  do a3 <- wr (repeat (-1) k) 0%nat x;
  do a4 <- wr (repeat (-1) k) idx 0;
  for_ k (rank_vertex a1 a2) (0%nat, a3, a4).

(** One cell of lines 1008-1022: number of vertices, row of [cell_vertices]. *)
Definition cell_vertices (a4 v : list Z) (ic : nat) : outcome (nat * list Z) :=
  for_ maxv (fun iv (st : nat * list Z) =>
    let (c, row) := st in
    do d <- rd v (slot ic iv);
    if 0 <? d then do x <- rdz a4 (d - 1); do row <- wr row c x; Ok (S c, row) else Ok st) (0%nat, repeat (-1) maxv).

(** Returns [vertex_ids_natural] and, per cell, its vertices. *)
Definition local_vertices (v : list Z) : outcome (list Z * list (nat * list Z)) :=
  do k <- count_vertices v;
  do st <- collect_vertices k v;
  let '(_, a1, v) := st in
  let a1 := map (fun x => x - 1) a1 in
  do st <- rank_vertices a1;
  let '(t, a3, a4) := st in
  do cells <- for_ n (fun ic (a : list (nat * list Z)) => do r <- cell_vertices a4 v ic; wr a ic r) (repeat (0%nat, @nil Z) n);
  Ok (firstn (S t) a3, cells).
End vertices.

(** SaveLocalVertexCoordinates, 1045-1119: three coordinates per vertex. *)
Definition local_coordinates {A} (ids : list Z) (coords : list (list A)) : outcome (list (list A)) :=
  for_ (length ids) (fun iv a => do g <- rd ids iv; do c <- rdz coords g; wr a iv c) (repeat [] (length ids)).

(** ** Matrix layout: TDyUGDMCreateMatrix, tdyugdm.c:445-477

    Entries reserved for a row in the diagonal and the off-diagonal block. *)
Definition preallocate (nb : nat * list Z) : outcome (nat * nat) :=
  let (num, row) := nb in
  for_ num (fun k (dn : nat * nat) =>
    let (d, o) := dn in
    do x <- rd row k; Ok (if 0 <=? x then (S d, o) else (d, S o))) (1%nat, 0%nat).

(** ** All processes: TDyUGridCreateFromPFLOTRANMesh, tdyugrid.c:1151-1207,
    from PackNatOrderVector on

    What a process holds before the partitioning: the vertex rows of its cells
    and its rows of the dual matrix. *)
Record part := Part { p_verts : list (list Z); p_ia : list nat; p_ja : list Z }.

Fixpoint pack_all (maxv maxd off : nat) (parts : list part) : outcome (list Z) :=
  match parts with
  | [] => Ok []
  | p :: ps =>
      let n := length (p_verts p) in
      do v <- pack maxv maxd off (p_verts p) (p_ia p) (p_ja p) (repeat 0 (n * stride_of maxv maxd));
      do r <- pack_all maxv maxd (off + n) ps;
      Ok (v ++ r)
  end.

(** MPI_Exscan of the new cell counts: (offset, count) per process. *)
Fixpoint ranks_from (off : nat) (nls : list nat) : list (nat * nat) :=
  match nls with [] => [] | n :: ns => (off, n) :: ranks_from (off + n) ns end.

Fixpoint mapM {A B} (f : A -> outcome B) (l : list A) : outcome (list B) :=
  match l with [] => Ok [] | x :: l => do y <- f x; do ys <- mapM f l; Ok (y :: ys) end.

(** What a process holds after ScatterVecNatOrderToPetscOrder (818-853). *)
Record numbers := Numbers {
  n_natural : list Z; n_petsc : list Z; n_ghosts : list Z; n_vec : list Z; n_nbs : list (nat * list Z) }.

Section redistribute.
Context (sort : list Z -> list nat) (maxv maxd : nat).
Let stride := stride_of maxv maxd.
Let doff := dual_offset maxv.

Definition number_rank (ao post : list Z) (r : nat * nat) : outcome numbers :=
  let (off, nl) := r in
  let v := slice stride off nl post in
  do nat_ids <- save_natural stride nl v;
  do pv <- to_global stride doff nl maxd ao nat_ids v;
  let (petsc, vg) := pv in
  do gv <- to_local sort stride doff nl maxd (Z.of_nat off) vg;
  let (ghosts, vl) := gv in
  do nat_all <- update_natural stride doff nl maxd (length ghosts) nat_ids v vl;
  do nbs <- all_neighbours stride doff nl maxd vl;
  Ok (Numbers nat_all petsc ghosts vl nbs).

(** ScatterVecPetscOrderToLocalOrder and ScatterVertexNatOrderToLocalOrder:
    vertex numbers, vertices per cell, coordinates. *)
Definition vertices_rank {A} (coords : list (list A)) (vec : list Z) (x : numbers)
  : outcome (list Z * list (nat * list Z) * list (list A)) :=
  let ids := n_petsc x ++ n_ghosts x in
  do w <- gather_records stride ids vec;
  do vc <- local_vertices sort stride vertex_ids_offset (length ids) maxv w;
  let (vids, cells) := vc in
  do cs <- local_coordinates vids coords;
  Ok (vids, cells, cs).

Definition redistribute {A} (coords : list (list A)) (parts : list part) (num : list nat) (nls : list nat)
  : outcome (list (numbers * (list Z * list (nat * list Z) * list (list A)))) :=
  do pre <- pack_all maxv maxd 0 parts;
  do post <- move_records stride num pre (repeat 0 (length pre));
  let ranks := ranks_from 0 nls in
  do nats <- mapM (fun r => save_natural stride (snd r) (slice stride (fst r) (snd r) post)) ranks;
  do ns <- mapM (number_rank (concat nats) post) ranks;
  let vec := concat (map n_vec ns) in
  do vs <- mapM (vertices_rank coords vec) ns;
  Ok (combine ns vs).
End redistribute.
