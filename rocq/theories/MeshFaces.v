(** Model of the faces of a mesh that is read from a file in PFLOTRAN's format
    (src/fv/share/tdymeshcustom.c:209-950 and 1231-1286).

    [cnv] and [cv] are ugrid->cell_num_vertices and the rows of ugrid->cell_vertices,
    [nbs] holds for every local cell the number of neighbours and its row of
    ugrid->cell_neighbors_local_ghosted (see [UGrid]).  max_face_per_cell is 6 and
    max_vert_per_face 4 (src/fv/share/tdyugrid.c:50-51).
    Simplifications: an unknown number of vertices makes GetCellType return an error
    code as if it were a cell type; here it is [Err].  face_to_vertex_natural is left
    out: it is written and never read. *)
From Coq Require Import List ZArith Arith Bool.
From Verif Require Import Prelude Arrays UGrid.
Import ListNotations.
Local Open Scope nat_scope.

(** ** Cell types: src/fv/share/tdymesh.c:324-347, 448-478, 484-504, 511-540, 632-656 *)
Inductive celltype := Tet | Pyramid | Wedge | Hex.
Definition GetCellType (n : nat) : outcome celltype :=
  match n with 4 => Ok Tet | 5 => Ok Pyramid | 6 => Ok Wedge | 8 => Ok Hex | _ => Err end.
Definition NumFaces (t : celltype) : nat := match t with Tet => 4 | Pyramid => 5 | Wedge => 5 | Hex => 6 end.
Definition NumFaceVertices (t : celltype) (iface : nat) : nat :=
  match t with
  | Tet => 3
  | Pyramid => if 3 <? iface then 4 else 3
  | Wedge => if 2 <? iface then 3 else 4
  | Hex => 4
  end.
Inductive facetype := TriFace | QuadFace.
Definition FaceTypeOf (t : celltype) (iface : nat) : facetype :=
  match t with
  | Tet => TriFace
  | Pyramid => if 3 <? iface then QuadFace else TriFace
  | Wedge => if 2 <? iface then TriFace else QuadFace
  | Hex => QuadFace
  end.
Definition NumVerticesOfFaceType (f : facetype) : nat := match f with TriFace => 3 | QuadFace => 4 end.
Definition same_type (a b : facetype) : bool :=
  match a, b with TriFace, TriFace => true | QuadFace, QuadFace => true | _, _ => false end.

(** GetHexFaceVertices, GetWedgeFaceVertices, GetPyramidFaceVertices,
    GetTetFaceVertices and GetFaceVertices, lines 215-464. *)
Definition GetFaceVertices (t : celltype) (iface : nat) : outcome (list Z) :=
  match t, iface with
  | Hex, 0 => Ok [0; 1; 5; 4]%Z | Hex, 1 => Ok [1; 2; 6; 5]%Z | Hex, 2 => Ok [2; 3; 7; 6]%Z
  | Hex, 3 => Ok [3; 0; 4; 7]%Z | Hex, 4 => Ok [0; 3; 2; 1]%Z | Hex, 5 => Ok [4; 5; 6; 7]%Z
  | Wedge, 0 => Ok [0; 1; 4; 3]%Z | Wedge, 1 => Ok [1; 2; 5; 4]%Z | Wedge, 2 => Ok [2; 0; 3; 5]%Z
  | Wedge, 3 => Ok [0; 2; 1; -1]%Z | Wedge, 4 => Ok [3; 4; 5; -1]%Z
  | Pyramid, 0 => Ok [0; 1; 4; -1]%Z | Pyramid, 1 => Ok [1; 2; 4; -1]%Z | Pyramid, 2 => Ok [2; 3; 4; -1]%Z
  | Pyramid, 3 => Ok [3; 0; 4; -1]%Z | Pyramid, 4 => Ok [0; 3; 2; 1]%Z
  | Tet, 0 => Ok [0; 1; 3; -1]%Z | Tet, 1 => Ok [1; 2; 3; -1]%Z | Tet, 2 => Ok [0; 3; 2; -1]%Z
  | Tet, 3 => Ok [0; 2; 1; -1]%Z
  | _, _ => Err
  end.

(** ** Arrays with two subscripts; the second is a face or cell number. *)
Definition table := list (list Z).
Definition rd2 (t : table) (i : nat) (j : Z) : outcome Z := do row <- rd t i; rdz row j.
Definition wr2 (t : table) (i : nat) (j v : Z) : outcome table := do row <- rd t i; do row <- wrz row j v; wr t i row.
(** TDyAllocate_IntegerArray_2D, src/tdymemory.c:133-146. *)
Definition alloc2 (n m : nat) : table := repeat (repeat (-1)%Z m) n.
(** A loop that ends with the first success. *)
Fixpoint first_some {A} (n k : nat) (f : nat -> outcome (option A)) : outcome (option A) :=
  match n with
  | 0 => Ok None
  | S n => do r <- f k; match r with Some a => Ok (Some a) | None => first_some n (S k) f end
  end.
(** A loop that ends with the first failure. *)
Fixpoint all_true (n k : nat) (f : nat -> outcome bool) : outcome bool :=
  match n with
  | 0 => Ok true
  | S n => do b <- f k; if b then all_true n (S k) f else Ok false
  end.
Definition some_true (n : nat) (f : nat -> outcome bool) : outcome bool :=
  do r <- first_some n 0 (fun k => do b <- f k; Ok (if b then Some tt else None));
  Ok (match r with Some _ => true | None => false end).

Section Faces.
Variable cnv : list nat.
Variable cv : list (list Z).
Variable nbs : list (nat * list Z).
Variables nlmax ngmax : nat.

Definition cell_type (c : Z) : outcome celltype := do n <- rdz cnv c; GetCellType n.

(** ** SetupMaps_C2F_F2C_F2V, lines 578-617 *)
Record maps := mkMaps { m_c2f : table; m_f2c : table; m_f2v : table; m_count : nat }.
Definition setup_face (icell iface : nat) (ct : celltype) (m : maps) : outcome maps :=
  let f := Z.of_nat (m_count m) in
  do c2f <- wr2 (m_c2f m) iface (Z.of_nat icell) f;
  do f2c <- wr2 (m_f2c m) 0 f (Z.of_nat icell);
  do ids <- GetFaceVertices ct iface;
  do f2v <- for_ (NumFaceVertices ct iface) (fun iv f2v =>
      do rel <- rd ids iv; do row <- rd cv icell; do v <- rdz row rel;
      wr2 f2v iv f v) (m_f2v m);
  Ok (mkMaps c2f f2c f2v (S (m_count m))).
Definition setup_maps : outcome maps :=
  for_ ngmax (fun icell m =>
    do ct <- cell_type (Z.of_nat icell);
    for_ (NumFaces ct) (fun iface m => setup_face icell iface ct m) m)
  (mkMaps (alloc2 6 ngmax) (alloc2 2 (6 * ngmax)) (alloc2 4 (6 * ngmax)) 0).

(** ** RemoveDuplicateFaces, lines 628-688 *)

(** AreAllVerticesPresentInDual, lines 476-507.  The inner loop does not stop when
    the vertex is found. *)
Definition has_vertex (c2 : Z) (v : Z) : outcome bool :=
  do n2 <- rdz cnv c2; do row2 <- rdz cv c2;
  for_ n2 (fun k b => do v2 <- rd row2 k; Ok (if (v =? v2)%Z then true else b)) false.
Definition all_present (c2f f2v : table) (c c2 : Z) (iface : nat) : outcome bool :=
  do ct <- cell_type c;
  do f <- rd2 c2f iface c;
  if NumFaceVertices ct iface =? 0 then Ok false
  else all_true (NumFaceVertices ct iface) 0 (fun iv => do v <- rd2 f2v iv f; has_vertex c2 v).
(** GetCorrespondingFaceInDualCell, lines 519-568 ([None]: -1). *)
Definition corresponding (c2f f2v : table) (c c2 : Z) (iface : nat) : outcome (option nat) :=
  do ct <- cell_type c;
  let nv := NumFaceVertices ct iface in
  do f <- rd2 c2f iface c;
  do ct2 <- cell_type c2;
  first_some (NumFaces ct2) 0 (fun iface2 =>
    do f2 <- rd2 c2f iface2 c2;
    let nv2 := NumFaceVertices ct2 iface2 in
    if nv =? nv2 then
      do b <- all_true nv 0 (fun iv =>
        do v <- rd2 f2v iv f;
        some_true nv2 (fun iv2 => do v2 <- rd2 f2v iv2 f2; Ok (v =? v2)%Z));
      Ok (if b then Some iface2 else None)
    else Ok None).
(** The body of the loop over the neighbours, lines 642-683; [d] is the entry of the
    table. *)
Definition remove_pair (f2v : table) (c : Z) (d : Z) (st : table * table) : outcome (table * table) :=
  let '(c2f, f2c) := st in
  let c2 := Z.abs d in
  if (c2 <=? c)%Z then Ok st
  else
    do ct <- cell_type c;
    do r <- first_some (NumFaces ct) 0 (fun iface =>
      do p <- all_present c2f f2v c c2 iface;
      if p then do j <- corresponding c2f f2v c c2 iface;
                Ok (match j with Some j => Some (iface, j) | None => None end)
      else Ok None);
    match r with
    | None => Err
    | Some (iface, iface2) =>
      do f <- rd2 c2f iface c;
      do f2 <- rd2 c2f iface2 c2;
      if (f <? f2)%Z then
        do c2f <- wr2 c2f iface2 c2 f;
        do x <- rd2 f2c 0 f2;
        do f2c <- wr2 f2c 0 f2 (- x);
        do f2c <- wr2 f2c 1 f c2;
        Ok (c2f, f2c)
      else
        do c2f <- wr2 c2f iface c f2;
        do x <- rd2 f2c 0 f;
        do f2c <- wr2 f2c 0 f (- x);
        do f2c <- wr2 f2c 1 f2 c;
        Ok (c2f, f2c)
    end.
Definition remove_duplicates (f2v : table) (st : table * table) : outcome (table * table) :=
  for_ nlmax (fun icell st =>
    do nb <- rd nbs icell;
    for_ (fst nb) (fun idual st => do d <- rd (snd nb) idual; remove_pair f2v (Z.of_nat icell) d st) st) st.

(** ** UpdateMapsC2F_F2C_F2V, lines 698-786 *)
Definition count_faces (f2c : table) : outcome nat :=
  for_ (6 * ngmax) (fun f n => do x <- rd2 f2c 0 (Z.of_nat f); Ok (if (0 <=? x)%Z then S n else n)) 0.
Definition compress_vertices (f2c f2v : table) (n : nat) : outcome table :=
  do r <- for_ (6 * ngmax) (fun f '(t, k) =>
    do x <- rd2 f2c 0 (Z.of_nat f);
    if (0 <=? x)%Z then
      do t <- for_ 4 (fun iv t => do v <- rd2 f2v iv (Z.of_nat f); wr2 t iv (Z.of_nat k) v) t;
      Ok (t, S k)
    else Ok (t, k)) (alloc2 4 n, 0);
  Ok (fst r).
(** tmp_int_2d and tmp_int. *)
Definition compress_cells (f2c : table) (n : nat) : outcome (table * list Z) :=
  do r <- for_ (6 * ngmax) (fun f '(t, tmp, k) =>
    do x <- rd2 f2c 0 (Z.of_nat f);
    if (-1 <? x)%Z then
      do t <- for_ 2 (fun i t => do y <- rd2 f2c i (Z.of_nat f); wr2 t i (Z.of_nat k) y) t;
      do tmp <- wr tmp f (Z.of_nat k);
      Ok (t, tmp, S k)
    else Ok (t, tmp, k)) (alloc2 2 n, repeat (-1)%Z (6 * ngmax), 0);
  let '(t, tmp, _) := r in Ok (t, tmp).
Definition renumber_one (tmp : list Z) (f c : Z) (c2f : table) : outcome table :=
  if (c <? 0)%Z then Ok c2f
  else
    do ct <- cell_type c;
    do r <- first_some (NumFaces ct) 0 (fun iface2 =>
      do f2 <- rd2 c2f iface2 c;
      if (f2 <? 0)%Z then Ok None
      else do k <- rdz tmp f2; Ok (if (f =? k)%Z then Some iface2 else None));
    match r with Some iface2 => wr2 c2f iface2 c f | None => Err end.
Definition renumber (tmp : list Z) (f2c : table) (n : nat) (c2f : table) : outcome table :=
  for_ n (fun f c2f =>
    for_ 2 (fun i c2f => do c <- rd2 f2c i (Z.of_nat f); renumber_one tmp (Z.of_nat f) c c2f) c2f) c2f.
(** ugrid->num_faces, ugrid->face_to_vertex, the new face_to_cell and cell_to_face. *)
Definition update_maps (c2f f2c f2v : table) : outcome (nat * table * table * table) :=
  do n <- count_faces f2c;
  do uf2v <- compress_vertices f2c f2v n;
  do r <- compress_cells f2c n;
  let '(f2c', tmp) := r in
  do c2f <- renumber tmp f2c' n c2f;
  Ok (n, uf2v, f2c', c2f).

(** ** CreateInternalFaces, lines 836-950 *)

(** Memory behind a pointer: tables that can be used, or freed. *)
Inductive block := Live (t : table) | Freed.
Definition deref (b : block) : outcome table := match b with Live t => Ok t | Freed => UB end.

Definition count_connections : outcome nat :=
  for_ nlmax (fun icell n =>
    do nb <- rd nbs icell;
    for_ (fst nb) (fun idual n => do d <- rd (snd nb) idual;
      Ok (if ((d <? 0) || (Z.of_nat icell <? d))%Z then S n else n)) n) 0.
(** faces.cell_ids, faces.id, faces.num_vertices, connection_to_face; iconn. *)
Record conns := mkConns { k_cells : list Z; k_id : list Z; k_nv : list nat; k_face : list Z; k_n : nat }.
Definition connect (c2f : table) (b : block) (icell : nat) (d : Z) (k : conns) : outcome conns :=
  let c := Z.of_nat icell in
  if (c <? Z.abs d)%Z then
    do ct <- cell_type c;
    do r <- first_some (NumFaces ct) 0 (fun iface =>
      do f <- rd2 c2f iface c;
      do s <- some_true 2 (fun side => do f2c <- deref b; do x <- rd2 f2c side f; Ok (x =? Z.abs d)%Z);
      Ok (if s then Some (iface, f) else None));
    match r with
    | None => Err
    | Some (iface, f) =>
      do cf <- wr (k_face k) (k_n k) f;
      let c2 := Z.abs d in
      do n2 <- rdz cnv c2;
      do r <- first_some n2 0 (fun iface2 =>
        do x <- rd2 c2f iface c; do y <- rd2 c2f iface2 c2; Ok (if (x =? y)%Z then Some iface2 else None));
      match r with
      | None => Err
      | Some iface2 =>
        do ct2 <- cell_type c2;
        if same_type (FaceTypeOf ct iface) (FaceTypeOf ct2 iface2) then
          do nv <- wr (k_nv k) (k_n k) (NumVerticesOfFaceType (FaceTypeOf ct iface));
          do ids <- wr (k_cells k) (2 * k_n k) c;
          do ids <- wr ids (2 * k_n k + 1) c2;
          do x <- rd2 c2f iface c;
          do id <- wr (k_id k) (k_n k) x;
          Ok (mkConns ids id nv cf (S (k_n k)))
        else Err
      end
    end
  else Ok k.
Definition create_faces (c2f : table) (b : block) : outcome conns :=
  do n <- count_connections;
  for_ nlmax (fun icell k =>
    do nb <- rd nbs icell;
    for_ (fst nb) (fun idual k => do d <- rd (snd nb) idual; connect c2f b icell d k) k)
  (mkConns (repeat (-1)%Z (2 * n)) (map Z.of_nat (seq 0 n)) (repeat 0 n) (repeat (-1)%Z n) 0).

(** ** TDySetupFacesFromDiscretization, lines 1231-1286

    UpdateMapsC2F_F2C_F2V gets the pointer face_to_cell by value, frees what it
    points to and puts the new table into a variable of its own (lines 744-745); the
    pointer that is then given to CreateInternalFaces still points to the freed
    memory.  [by_reference] is the variant in which the new table comes back. *)
Record meshfaces := mkMF { f_num : nat; f_verts : table; f_cells : table; f_conns : conns }.
Definition setup_faces (by_reference : bool) : outcome meshfaces :=
  do m <- setup_maps;
  do st <- remove_duplicates (m_f2v m) (m_c2f m, m_f2c m);
  let '(c2f, f2c) := st in
  do u <- update_maps c2f f2c (m_f2v m);
  let '(n, uf2v, f2c', c2f) := u in
  do k <- create_faces c2f (if by_reference then Live f2c' else Freed);
  Ok (mkMF n uf2v c2f k).
End Faces.
