(** Model of how the transmissibilities of the multi-point flux scheme are stored,
    src/fv/mpfao/tdympfao.c: the allocation in the Setup functions, the loop over the
    vertices (ComputeTransmissibilityMatrix) and the arrays Trans, Temp_Trans and
    Psi_Trans that it fills beside the matrices Trans_mat, Temp_Trans_mat and
    Psi_Trans_mat.  The values themselves are those of Mpfao.v.

    A face of the boundary is identified by its boundary number, as in Mpfao.v.
    UpdateTransmissibilityMatrix (regions) is in Region.v and left out here. *)
From Coq Require Import Reals ZArith List Bool Arith.
From Verif Require Import Prelude Arrays Mpfao MpfaoTs.
Import ListNotations.
Local Open Scope R_scope.

(** varID of lines 1126 and 1515: 0, 1, 2. *)
Inductive variable := Pressure | Temperature | Salt.

(** What MpfaoTs.v does not need of a vertex: num_boundary_faces, the sub-cells with
    the G matrix of a variable (subc_Gmatrix, Temp_subc_Gmatrix, Psi_subc_Gmatrix),
    and the faces of the sub-cell of the first cell (TDyMeshGetSubcellFaces). *)
Record extra := mkExtra { e_nbnd : nat; e_sub : variable -> list subcell; e_sfaces : list nat }.
(** The mesh; the vertices of each face (TDyMeshGetFaceVertices). *)
Record tmesh := mkTmesh { t_mesh : mesh; t_extra : list extra; t_fverts : list (list nat) }.

Definition row_of (f s : nat) : nat := (f * 4 + s)%nat.
(** The vertex as Mpfao.v sees it; its rows are face_id*4+subface_id (lines 1454-1456). *)
Definition vertex_of (v : vert) (e : extra) (x : variable) : vertex :=
  mkVertex (x_cells v) (e_sub e x) (length (x_faces v)) (e_nbnd e)
    (map (fun fs => row_of (fst fs) (snd fs)) (combine (x_faces v) (x_subs v))).

(** TDyAllocate_RealArray_3D, src/tdymemory.c:163-178 (TDyAlloc fills with zero). *)
Definition alloc3 (a b c : nat) : Trans := repeat (repeat (repeat 0 c) b) a.
Definition wr3 (T : Trans) (i j k : nat) (x : R) : outcome Trans :=
  do a <- rd T i;
  do b <- rd a j;
  do b <- wr b k x;
  do a <- wr a j b;
  wr T i a.

(** One of the arrays with its matrix (the list of entries added to it). *)
Record stored := mkStored { st_T : Trans; st_l : list entry }.

(** ComputeTransmissibilityMatrix_ForNonCornerVertex, lines 1126-1513, with the
    stores of lines 1375-1413 (the rows of [trans] are numbered through). *)
Definition store_block (z : sizes) (m : cf) (X : list R) (iv first n : nat) (T : Trans) : outcome Trans :=
  for_ (npcen z + npitf_dir z) (fun j T => for_ n (fun i T => wr3 T iv (i + first) j (trans z m X (i + first) j)) T) T.
Definition NonCorner (b : bctype) (ncells iv : nat) (v : vertex) (X : option (list R)) (s : stored) : outcome stored :=
  let z := sizes_of b v in
  do m <- ComputeCandF z v;
  match X with
  | None => Err
  | Some X =>
      do T <- store_block z m X iv 0 (nflux_in z) (st_T s);
      do T <- store_block z m X iv (nflux_in z) (dir_up z) T;
      do T <- store_block z m X iv (nflux_in z + dir_up z) (dir_dn z) T;
      do l <- vertex_entries z m X ncells v;
      Ok (mkStored T (st_l s ++ l))
  end.

(** ** Corner vertices: lines 1515-1756 *)

(** Position of the first occurrence (the loops of lines 1624-1629). *)
Fixpoint position (x : nat) (l : list nat) : option nat :=
  match l with
  | [] => None
  | y :: l => if (x =? y)%nat then Some O else match position x l with Some i => Some (S i) | None => None end
  end.
(** Lines 1617-1630: face_id*4+subface_id for the faces of the sub-cell.  A vertex
    that is not on the face leaves subface_id as it was: undefined. *)
Definition corner_row_of (M : tmesh) (iv face_id : nat) : outcome nat :=
  do vs <- rd (t_fverts M) face_id;
  match position iv vs with Some s => Ok (row_of face_id s) | None => UB end.
Fixpoint corner_rows (M : tmesh) (iv : nat) (l : list nat) : outcome (list nat) :=
  match l with
  | [] => Ok []
  | f :: l => do r <- corner_row_of M iv f; do rs <- corner_rows M iv l; Ok (r :: rs)
  end.

(** The cell number of the boundary side of a face. *)
Definition outside (f : face) : Z := if (f_up f <? 0)%Z then f_up f else f_dn f.
(** Lines 1674-1688: look for face [f] among the faces of the sub-cell, recording
    their boundary cells on the way. *)
Fixpoint scan (m : mesh) (f : nat) (l : list nat) (mm : nat) (b : list (option Z)) : outcome (list (option Z) * option nat) :=
  match l with
  | [] => Ok (b, None)
  | s :: l =>
      do c <- rd (faces m) s;
      do b <- wr b mm (Some (outside c));
      if (f =? s)%nat then Ok (b, Some mm) else scan m f l (S mm) b
  end.
(** Lines 1658-1695: the row of G for each face of the vertex ([Gmatrix[-1]] is
    undefined), and subcell_boundary_cell_id. *)
Definition swap_rows (m : mesh) (vf sf : list nat) : outcome (list (option Z) * list nat) :=
  for_ 3 (fun iface s =>
    do f <- rd vf iface;
    do r <- scan m f sf 0 (fst s);
    match snd r with None => UB | Some row => Ok (fst r, snd s ++ [row]) end) ([None; None; None], []).
(** Lines 1723-1729: the first entry of subcell_boundary_cell_id equal to [z]. *)
Fixpoint find_bnd (z : Z) (l : list (option Z)) (mm : nat) : outcome nat :=
  match l with
  | [] => UB
  | None :: _ => UB
  | Some y :: l => if (z =? y)%Z then Ok mm else find_bnd z l (S mm)
  end.
(** Lines 1704-1735: which column of T_1 ends up in each column of T_2. *)
Definition swap_columns (m : mesh) (vf : list nat) (b : list (option Z)) : outcome (list (option nat)) :=
  for_ 3 (fun j cols =>
    do f <- rd vf j;
    do c <- rd (faces m) f;
    do col <- find_bnd (outside c) b 0;
    wr cols col (Some j)) [None; None; None].
Definition g_at (f : sface) (j : nat) : R := let '(g0, g1, g2) := sf_g f in nth j [g0; g1; g2] 0.

Definition Corner (M : tmesh) (ncells iv : nat) (v : vert) (e : extra) (x : variable) (s : stored) : outcome stored :=
  do cell <- rd (x_cells v) 0;
  do sub <- rd (e_sub e x) 0;
  (* 1571-1577 *)
  do T <- for_ 3 (fun i T =>
    do f <- rd (sfaces sub) i;
    for_ 4 (fun j T => wr3 T iv i j (if (j <? 3)%nat then - g_at f j else 0 + g_at f 0 + g_at f 1 + g_at f 2)) T) (st_T s);
  (* 1579-1645 *)
  do rows <- corner_rows M iv (e_sfaces e);
  do l <- CornerVertex ncells cell sub rows;
  (* 1647-1751 *)
  do br <- swap_rows (t_mesh M) (x_faces v) (e_sfaces e);
  do cols <- swap_columns (t_mesh M) (x_faces v) (fst br);
  do T <- for_ 3 (fun i T =>
    do row <- rd (snd br) i;
    do f <- rd (sfaces sub) row;
    do T <- wr3 T iv i 0 (0 + g_at f 0 + g_at f 1 + g_at f 2);
    for_ 3 (fun j T =>
      do c <- rd cols j;
      match c with
      | None => UB
      | Some c => wr3 T iv i (j + 1) (- g_at f c)
      end) T) T;
  Ok (mkStored T (st_l s ++ l)).

(** ** The loop over the vertices *)

(** The mode decides which G matrices, and so which matrices, exist: Temp_subc_Gmatrix
    in TH, Psi_subc_Gmatrix in SALINITY. *)
Inductive tmode := RICHARDS | TH | SALINITY.
Record tstate := mkTstate { ts_p : stored; ts_t : stored; ts_s : stored }.

(** ComputeTransmissibilityMatrix, lines 1800-1836.  [X x iv] is what LAPACK answers
    for variable [x] at vertex [iv]. *)
Definition is_corner (v : vert) (e : extra) : bool :=
  negb ((e_nbnd e =? 0)%nat || (1 <? length (x_cells v))%nat).
Definition trans_vertex (k : tmode) (M : tmesh) (X : variable -> nat -> option (list R)) (iv : nat) (s : tstate) : outcome tstate :=
  do v <- rd (verts (t_mesh M)) iv;
  do e <- rd (t_extra M) iv;
  let b := bc (t_mesh M) in
  let ncells := length (rocks (t_mesh M)) in
  if negb (x_local v) then Ok s
  else if negb (is_corner v e) then
    do p <- NonCorner b ncells iv (vertex_of v e Pressure) (X Pressure iv) (ts_p s);
    match k with
    | TH => do t <- NonCorner b ncells iv (vertex_of v e Temperature) (X Temperature iv) (ts_t s); Ok (mkTstate p t (ts_s s))
    | _ => Ok (mkTstate p (ts_t s) (ts_s s))
    end
  else
    match b with
    | NeumannBC => Ok s
    | _ =>
        do p <- Corner M ncells iv v e Pressure (ts_p s);
        match k with
        | TH => do t <- Corner M ncells iv v e Temperature (ts_t s); Ok (mkTstate p t (ts_s s))
        | SALINITY => do c <- Corner M ncells iv v e Salt (ts_s s); Ok (mkTstate p (ts_t s) c)
        | RICHARDS => Ok (mkTstate p (ts_t s) (ts_s s))
        end
    end.
Definition ComputeTransmissibilityMatrix (k : tmode) (M : tmesh) (X : variable -> nat -> option (list R)) (s : tstate) : outcome tstate :=
  for_ (length (verts (t_mesh M))) (trans_vertex k M X) s.

(** TDySetup_Richards_MPFAO 2310-2325, TDySetup_TH_MPFAO 2419-2450,
    TDySetup_Salinity_MPFAO 2488-2520.  [ncv] and [nfv] are the numbers of cells and of
    faces at the vertex that has most (TDyMeshGetMaxVertexConnectivity). *)
Definition no_array : stored := mkStored [] [].
Definition setup_arrays (k : tmode) (nv ncv nfv : nat) : tstate :=
  let p := mkStored (alloc3 nv nfv (nfv + ncv)) [] in
  match k with
  | RICHARDS => mkTstate p no_array no_array
  | TH => mkTstate p (mkStored (alloc3 nv nfv nfv) []) no_array
  | SALINITY => mkTstate p no_array (mkStored (alloc3 nv nfv nfv) [])
  end.
Definition Setup (k : tmode) (M : tmesh) (ncv nfv : nat) (X : variable -> nat -> option (list R)) : outcome tstate :=
  ComputeTransmissibilityMatrix k M X (setup_arrays k (length (verts (t_mesh M))) ncv nfv).
