(** The reading of a mesh file and the graph of neighbouring cells,
    src/fv/share/tdyugrid.c.  The file holds two blocked vectors: "Cells", each
    block a cell type followed by vertex numbers (from 1, 0 for unused entries),
    and "Vertices", each block the three coordinates of a vertex.  Cell entries
    are integers stored as reals, taken as integers here. *)
From Coq Require Import List Arith ZArith Bool.
From Verif Require Import Prelude Arrays UGrid.
Import ListNotations.
Local Open Scope Z_scope.

(** The entries of a vector of blocks of size [bs] held by the process that owns
    [nl] blocks from block [off] on (VecLoad). *)
Definition share {A} (bs off nl : nat) (v : list A) : list A := firstn (nl * bs) (skipn (off * bs) v).

(** [for (j..) row[j] = f(v_p[count++])], the inner loops of lines 125-127 and
    153-155; [n] entries. *)
Definition read_row {A B} (f : A -> B) (n : nat) (v : list A) (st : nat * list B) : outcome (nat * list B) :=
  for_ n (fun j st => do x <- rd v (fst st); do row <- wr (snd st) j (f x); Ok (S (fst st), row)) st.

(** The cell types of the switch, lines 112-124. *)
Definition known_type (n : Z) : bool := (n =? 4) || (n =? 5) || (n =? 6) || (n =? 8).

(** ReadPFLOTRANMeshFile, lines 99-132: the cells of one process, [v] its part
    of the vector, [bs] the block size. *)
Definition read_cells (bs : nat) (v : list Z) : outcome (list (list Z)) :=
  let nl := (length v / bs)%nat in
  let maxv := (bs - 1)%nat in
  do st <- for_ nl (fun i st =>
      do nvertex <- rd v (fst st);
      if known_type nvertex then
        do row <- rd (snd st) i;
        do st' <- read_row (fun x => x - 1) maxv v (S (fst st), row);
        do cv <- wr (snd st) i (snd st');
        Ok (fst st', cv)
      else Err)
    (0%nat, repeat (repeat (-1) maxv) nl);
  Ok (snd st).

(** Lines 136-158: the coordinates of one process; [zero] is what
    TDyAllocate_RealArray_2D fills the array with. *)
Definition read_coordinates {A} (zero : A) (dim : nat) (v : list A) : outcome (list (list A)) :=
  if negb (dim =? 3)%nat then Err else
  let nl := (length v / dim)%nat in
  do st <- for_ nl (fun i st =>
      do row <- rd (snd st) i;
      do st' <- read_row (fun x => x) dim v (fst st, row);
      do cs <- wr (snd st) i (snd st');
      Ok (fst st', cs))
    (0%nat, repeat (repeat zero dim) nl);
  Ok (snd st).

(** Line 138 (VecGetSize of the vertices), kept as mesh->num_vertices
    (tdymeshcustom.c:858). *)
Definition num_verts_global {A} (v : list A) : nat := length v.

(** CreateAdjacencyMatrix, lines 195-230, on one process: the arrays [i] and
    [j]. *)
Definition adjacency (ncol : nat) (rows : list (list Z)) : outcome (list nat * list Z) :=
  let nrow := length rows in
  do i <- wr (repeat 0%nat (nrow + 1)) 0 0%nat;
  do st <- for_ nrow (fun icell st =>
      let '(count, i, j) := st in
      do st' <- for_ ncol (fun ivert st =>
          do row <- rd rows icell; do x <- rd row ivert;
          if 0 <=? x then push x st else Ok st) (count, j);
      do i <- wr i (icell + 1) (fst st');
      Ok (fst st', i, snd st'))
    (0%nat, i, repeat (-1) (nrow * ncol));
  let '(_, i, j) := st in Ok (i, j).

(** Row [c] of a matrix in compressed rows, and all rows. *)
Definition matrix_row (m : list nat * list Z) (c : nat) : list Z :=
  let a := nth c (fst m) 0%nat in firstn (nth (S c) (fst m) 0%nat - a) (skipn a (snd m)).
Definition matrix_rows (m : list nat * list Z) : list (list Z) :=
  map (matrix_row m) (seq 0 (length (fst m) - 1)).

(** MatMeshToCellGraph (PETSc): cells with at least [ncommon] columns in common
    are neighbours. *)
Definition common (a b : list Z) : nat := length (filter (fun x => existsb (Z.eqb x) b) a).
Definition cell_graph (ncommon : nat) (rows : list (list Z)) : list (list nat) :=
  map (fun c => filter (fun d => negb (d =? c)%nat && (ncommon <=? common (nth c rows []) (nth d rows []))%nat)
                       (seq 0 (length rows)))
      (seq 0 (length rows)).

(** TDyUGridCreateFromPFLOTRANMesh, lines 1151-1166, up to the graph: the
    neighbours of every cell of the file. *)
Definition graph_of_file (bs : nat) (cells : list Z) (nls : list nat) : outcome (list (list nat)) :=
  do parts <- mapM (fun r => read_cells bs (share bs (fst r) (snd r) cells)) (ranks_from 0 nls);
  do ncol <- active_all (bs - 1) parts;
  do ms <- mapM (adjacency ncol) parts;
  Ok (cell_graph 3 (concat (map matrix_rows ms))).
