(** Model of the transmissibility matrices of the multi-point flux scheme (MPFA-O),
    src/fv/mpfao/tdympfao.c.

    Numbers are reals.  A two-dimensional work array is a function of row and column
    together with its dimensions; writes outside the dimensions are [UB].  The
    one-dimensional work arrays are lists, filled in column-major order exactly as
    the running index [idx] of the code does.  LAPACK's getrf/getrs is represented
    by its contract (see [solves]); BLAS's gemm by its definition. *)
From Coq Require Import Reals List Bool Arith.
From Verif Require Import Prelude Arrays.
Import ListNotations.
Local Open Scope R_scope.

(** One face of a sub-cell: is_face_up, face_flux_idx, face_unknown_idx (TDySubcell,
    include/private/tdymeshimpl.h), faces->is_internal, the index of the boundary
    pressure if it is a boundary face, and the row of the sub-cell's G matrix. *)
Record sface := mkSface {
  sf_up : bool; sf_flux : nat; sf_unk : nat; sf_internal : bool; sf_bnd : nat;
  sf_g : R * R * R
}.
(** A sub-cell has three faces (the code hard-wires ndim = 3, line 1143, and
    idx_interface_p0..p2, lines 1041-1045). *)
Definition subcell : Type := (sface * sface * sface)%type.
Definition sfaces (s : subcell) : list sface := let '(f0, f1, f2) := s in [f0; f1; f2].

(** bc_type of TDyMPFAO: one value for the whole mesh. *)
Inductive bctype := DirichletBC | NeumannBC | SeepageBC.

(** What surrounds one vertex: internal_cell_ids and the sub-cells, in the same
    order; num_faces and num_boundary_faces; for each face the row
    face_id*4+subface_id of the global matrix (face_ids and subface_ids). *)
Record vertex := mkVertex {
  v_cells : list nat; v_sub : list subcell;
  v_nfaces : nat; v_nbnd : nat;
  v_rows : list nat
}.

(** Two-dimensional work arrays (TDyAllocate_RealArray_2D, zero-filled). *)
Record mat := mkMat { m_rows : nat; m_cols : nat; m_el : nat -> nat -> R }.
Definition alloc (r c : nat) : mat := mkMat r c (fun _ _ => 0).
Definition put (M : mat) (i j : nat) (x : R) : outcome mat :=
  if (i <? m_rows M)%nat && (j <? m_cols M)%nat
  then Ok (mkMat (m_rows M) (m_cols M)
             (fun i' j' => if (i' =? i)%nat && (j' =? j)%nat then x else m_el M i' j'))
  else UB.

(** ExtractSubMatrix, lines 874-889: the block of M that starts at (r, c). *)
Definition block (M : mat) (r c : nat) : nat -> nat -> R := fun i j => m_el M (r + i)%nat (c + j)%nat.

(** DetermineNumberOfUpAndDownBoundaryFaces, lines 955-998. *)
Definition boundary_faces (v : vertex) : list sface :=
  filter (fun f => negb (sf_internal f)) (flat_map sfaces (v_sub v)).
Definition nbc_up (v : vertex) : nat := length (filter sf_up (boundary_faces v)).
Definition nbc_dn (v : vertex) : nat := length (filter (fun f => negb (sf_up f)) (boundary_faces v)).

(** ComputeCandFmatrix, lines 1000-1076. *)
Record cf := mkCF { Cup : mat; Cdn : mat; Fup : mat; Fdn : mat }.
Definition put_row (C : mat) (s : subcell) (f : sface) : outcome mat :=
  let '(f0, f1, f2) := s in
  let '(g0, g1, g2) := sf_g f in
  do C <- put C (sf_flux f) (sf_unk f0) (- g0);
  do C <- put C (sf_flux f) (sf_unk f1) (- g1);
  put C (sf_flux f) (sf_unk f2) (- g2).
Definition minus_sum (f : sface) : R := let '(g0, g1, g2) := sf_g f in - g0 - g1 - g2.
Definition cf_face (i : nat) (s : subcell) (f : sface) (m : cf) : outcome cf :=
  if sf_up f then
    do C <- put_row (Cup m) s f;
    do F <- put (Fup m) (sf_flux f) i (minus_sum f);
    Ok (mkCF C (Cdn m) F (Fdn m))
  else
    do C <- put_row (Cdn m) s f;
    do F <- put (Fdn m) (sf_flux f) i (minus_sum f);
    Ok (mkCF (Cup m) C (Fup m) F).
Definition cf_subcell (i : nat) (s : subcell) (m : cf) : outcome cf :=
  let '(f0, f1, f2) := s in
  do m <- cf_face i s f0 m;
  do m <- cf_face i s f1 m;
  cf_face i s f2 m.
Fixpoint cf_cells (i : nat) (l : list subcell) (m : cf) : outcome cf :=
  match l with
  | [] => Ok m
  | s :: l => do m <- cf_subcell i s m; cf_cells (S i) l m
  end.

(** The sizes computed at the start of ComputeTransmissibilityMatrix_ForNonCornerVertex,
    lines 1158-1195. *)
Record sizes := mkSizes {
  npcen : nat; nflux_in : nat;
  dir_up : nat; dir_dn : nat; npitf_dir : nat;
  neu_up : nat; neu_dn : nat; npitf_neu : nat
}.
Definition sizes_of (b : bctype) (v : vertex) : sizes :=
  let up := nbc_up v in
  let dn := nbc_dn v in
  let nin := (v_nfaces v - (up + dn))%nat in
  match b with
  | DirichletBC | SeepageBC => mkSizes (length (v_cells v)) nin up dn (v_nbnd v) 0 0 0
  | NeumannBC => mkSizes (length (v_cells v)) nin 0 0 0 up dn (v_nbnd v)
  end.

(** Lines 1199-1223. *)
Definition ComputeCandF (z : sizes) (v : vertex) : outcome cf :=
  let npitf := (nflux_in z + v_nbnd v)%nat in
  let rup := (nflux_in z + dir_up z + neu_up z)%nat in
  let rdn := (nflux_in z + dir_dn z + neu_dn z)%nat in
  cf_cells 0 (v_sub v)
    (mkCF (alloc rup npitf) (alloc rdn npitf) (alloc rup (npcen z)) (alloc rdn (npcen z))).

(** One column-major column: internal rows, Neumann up rows, Neumann down rows. *)
Definition column (a b c : nat) (fin fup fdn : nat -> R) : list R :=
  map fin (seq 0 a) ++ map fup (seq 0 b) ++ map fdn (seq 0 c).

(** The blocks, ExtractsubCMatrices and ExtractsubFMatrices (lines 891-953, 1225-1247). *)
Definition C11 (z : sizes) (M : mat) := block M 0 0.
Definition C12 (z : sizes) (M : mat) := block M 0 (nflux_in z).
Definition C13 (z : sizes) (M : mat) := block M 0 (nflux_in z + npitf_dir z).
Definition C21 (z : sizes) (nd : nat) (M : mat) := block M (nflux_in z) 0.
Definition C22 (z : sizes) (nd : nat) (M : mat) := block M (nflux_in z) (nflux_in z).
Definition C31 (z : sizes) (nd : nat) (M : mat) := block M (nflux_in z + nd) 0.
Definition C32 (z : sizes) (nd : nat) (M : mat) := block M (nflux_in z + nd) (nflux_in z).
Definition C33 (z : sizes) (nd : nat) (M : mat) := block M (nflux_in z + nd) (nflux_in z + npitf_dir z).
Definition F1 (z : sizes) (M : mat) := block M 0 0.
Definition F2 (z : sizes) (nd : nat) (M : mat) := block M (nflux_in z) 0.
Definition F3 (z : sizes) (nd : nat) (M : mat) := block M (nflux_in z + nd) 0.

(** BINBCxCDBC_1d, lines 1249-1279. *)
Definition fill_B (z : sizes) (m : cf) : list R :=
  flat_map (fun j => column (nflux_in z) (neu_up z) (neu_dn z)
      (fun i => - F1 z (Fup m) i j + F1 z (Fdn m) i j)
      (fun i => - F3 z (dir_up z) (Fup m) i j)
      (fun i => - F3 z (dir_dn z) (Fdn m) i j)) (seq 0 (npcen z)) ++
  flat_map (fun j => column (nflux_in z) (neu_up z) (neu_dn z)
      (fun i => C12 z (Cup m) i j - C12 z (Cdn m) i j)
      (fun i => - C32 z (dir_up z) (Cup m) i j)
      (fun i => - C32 z (dir_dn z) (Cdn m) i j)) (seq 0 (npitf_dir z)).
(** AINBCxINBC_1d, lines 1281-1320. *)
Definition fill_A (z : sizes) (m : cf) : list R :=
  flat_map (fun j => column (nflux_in z) (neu_up z) (neu_dn z)
      (fun i => - C11 z (Cup m) i j + C11 z (Cdn m) i j)
      (fun i => - C31 z (dir_up z) (Cup m) i j)
      (fun i => - C31 z (dir_dn z) (Cdn m) i j)) (seq 0 (nflux_in z)) ++
  flat_map (fun j => column (nflux_in z) (neu_up z) (neu_dn z)
      (fun i => - C13 z (Cup m) i j + C13 z (Cdn m) i j)
      (fun i => - C33 z (dir_up z) (Cup m) i j)
      (fun i => - C33 z (dir_dn z) (Cdn m) i j)) (seq 0 (npitf_neu z)).
(** CupINBCxINBC_1d, same lines. *)
Definition fill_C (z : sizes) (m : cf) : list R :=
  flat_map (fun j => column (nflux_in z) (neu_up z) (neu_dn z)
      (fun i => C11 z (Cup m) i j)
      (fun i => C31 z (dir_up z) (Cup m) i j)
      (fun i => C31 z (dir_dn z) (Cdn m) i j)) (seq 0 (nflux_in z)) ++
  flat_map (fun j => column (nflux_in z) (neu_up z) (neu_dn z)
      (fun i => C13 z (Cup m) i j)
      (fun i => C33 z (dir_up z) (Cup m) i j)
      (fun i => C33 z (dir_dn z) (Cdn m) i j)) (seq 0 (npitf_neu z)).
(** CupDBCxIn_1d and CdnDBCxIn_1d, lines 1322-1336. *)
Definition fill_Cup_dir (z : sizes) (m : cf) : list R :=
  flat_map (fun j => map (fun i => C21 z (dir_up z) (Cup m) i j) (seq 0 (dir_up z))) (seq 0 (nflux_in z)).
Definition fill_Cdn_dir (z : sizes) (m : cf) : list R :=
  flat_map (fun j => map (fun i => C21 z (dir_dn z) (Cdn m) i j) (seq 0 (dir_dn z))) (seq 0 (nflux_in z)).

(** Entry (i, j) of a column-major array with leading dimension [ld]. *)
Definition cm (ld : nat) (a : list R) (i j : nat) : R := nth (j * ld + i) a 0.
Fixpoint acc (f : nat -> R) (n : nat) : R :=
  match n with O => 0 | S n => acc f n + f n end.

(** ComputeAinvB, lines 1078-1107: what LAPACKgetrf/getrs promise when they report
    success: X is n x m, column-major, and A X = B. *)
Definition solves (n m : nat) (A B X : list R) : Prop :=
  length X = (n * m)%nat /\
  forall i j, (i < n)%nat -> (j < m)%nat -> acc (fun k => cm n A i k * cm n X k j) n = cm n B i j.
(** ComputeCtimesAinvB, lines 1109-1124 (BLASgemm). *)
Definition gemm (m n k : nat) (C X : list R) : list R :=
  flat_map (fun j => map (fun i => acc (fun l => cm m C i l * cm k X l j) k) (seq 0 m)) (seq 0 n).

Definition nsys (z : sizes) : nat := (nflux_in z + npitf_neu z)%nat.
Definition ncol (z : sizes) : nat := (npcen z + npitf_dir z)%nat.

(** The entries of Trans[vertex_id], lines 1375-1422; [X] is AinvB_1d. *)
Definition trans (z : sizes) (m : cf) (X : list R) (i j : nat) : R :=
  if (i <? nflux_in z)%nat then
    let CX := gemm (nsys z) (ncol z) (nsys z) (fill_C z m) X in
    if (j <? npcen z)%nat
    then cm (nflux_in z + npitf_neu z) CX i j - F1 z (Fup m) i j
    else cm (nflux_in z + npitf_neu z) CX i j + C12 z (Cup m) i (j - npcen z)
  else if (i <? nflux_in z + dir_up z)%nat then
    let i := (i - nflux_in z)%nat in
    let CX := gemm (dir_up z) (ncol z) (nflux_in z) (fill_Cup_dir z m) X in
    if (j <? npcen z)%nat
    then cm (dir_up z) CX i j - F2 z (dir_up z) (Fup m) i j
    else cm (dir_up z) CX i j + C22 z (dir_up z) (Cup m) i (j - npcen z)
  else
    let i := (i - (nflux_in z + dir_up z))%nat in
    let CX := gemm (dir_dn z) (ncol z) (nflux_in z) (fill_Cdn_dir z m) X in
    if (j <? npcen z)%nat
    then cm (dir_dn z) CX i j - F2 z (dir_dn z) (Fdn m) i j
    else cm (dir_dn z) CX i j + C22 z (dir_dn z) (Cdn m) i (j - npcen z).

(** The columns of the global matrix, lines 1424-1471: the cells, then the boundary
    values behind the [ncells] cell values, in the order in which the boundary
    faces are met ([idxBnd]). *)
Definition columns (z : sizes) (ncells : nat) (v : vertex) : list nat :=
  v_cells v ++
  (if (0 <? npitf_dir z)%nat then map (fun f => (sf_bnd f + ncells)%nat) (boundary_faces v) else []).

(** The entries added to the global matrix, lines 1457-1472: (row, column, value). *)
Definition entry : Type := (nat * nat * R)%type.
Definition vertex_entries (z : sizes) (m : cf) (X : list R) (ncells : nat) (v : vertex) : outcome (list entry) :=
  let cols := columns z ncells v in
  for_ (nflux_in z + dir_up z + dir_dn z) (fun i l =>
    do row <- rd (v_rows v) i;
    for_ (npcen z + npitf_dir z) (fun j l =>
      do col <- rd cols j;
      Ok (l ++ [(row, col, trans z m X i j)])) l) [].

(** MatMult: entry [row] of the product of the assembled matrix with P.  Values
    added at the same place accumulate (ADD_VALUES). *)
Fixpoint mult (l : list entry) (P : nat -> R) (row : nat) : R :=
  match l with
  | [] => 0
  | (r, c, x) :: l => (if (r =? row)%nat then x * P c else 0) + mult l P row
  end.

(** ComputeTransmissibilityMatrix_ForNonCornerVertex, lines 1126-1513.  [X] is the
    answer of LAPACK, None if it reports a singular matrix (lines 1090-1095). *)
Definition NonCornerVertex (b : bctype) (ncells : nat) (v : vertex) (X : option (list R)) : outcome (list entry) :=
  let z := sizes_of b v in
  do m <- ComputeCandF z v;
  match X with
  | None => Err
  | Some X => vertex_entries z m X ncells v
  end.

(** ComputeTransmissibilityMatrix_ForBoundaryVertex_NotSharedWithInternalVertices,
    lines 1515-1610: the single cell of a corner vertex, the entries added to the
    global matrix.  [rows] are the rows of the three faces of the sub-cell. *)
Definition corner_row (f : sface) : list R :=
  let '(g0, g1, g2) := sf_g f in [- g0; - g1; - g2; 0 + g0 + g1 + g2].
Definition corner_columns (ncells : nat) (s : subcell) (cell : nat) : list nat :=
  map (fun f => (sf_bnd f + ncells)%nat) (filter (fun f => negb (sf_internal f)) (sfaces s)) ++ [cell].
Definition CornerVertex (ncells : nat) (cell : nat) (s : subcell) (rows : list nat) : outcome (list entry) :=
  let cols := corner_columns ncells s cell in
  let numBnd := length (filter (fun f => negb (sf_internal f)) (sfaces s)) in
  for_ 3 (fun i l =>
    do row <- rd rows i;
    do f <- rd (sfaces s) i;
    for_ (numBnd + 1) (fun j l =>
      do col <- rd cols j;
      do x <- rd (corner_row f) j;
      Ok (l ++ [(row, col, x)])) l) [].
