(** Model of the connectivity tables of the mesh: their allocation and the access
    functions (src/fv/share/tdymesh.c), the way they are filled from the closures of
    a DMPlex, and their conversion to compressed format
    (src/fv/share/tdymeshplex.c).

    A table has one row per element; the entries of row i start at offset[i] in the
    array of identifiers.  Identifiers and offsets are integers (-1: not set);
    counts are natural numbers, because the code only sets them to 0 or to a
    positive constant and increments them.  c_start is 0, as in every DMPlex. *)
From Coq Require Import List ZArith Bool Arith.
From Verif Require Import Prelude Arrays.
Import ListNotations.
Local Open Scope Z_scope.

(** Array accesses with an index that may be negative. *)
Definition rdz {A} (a : list A) (i : Z) : outcome A := if i <? 0 then UB else rd a (Z.to_nat i).
Definition wrz {A} (a : list A) (i : Z) (v : A) : outcome (list A) := if i <? 0 then UB else wr a (Z.to_nat i) v.

(** ** Allocation *)

(** TDyAllocate_IntegerArray_1D, src/tdymemory.c:120-126. *)
Definition allocate (n : nat) : list Z := repeat (-1) n.
(** The offsets: tdymesh.c:45-48, 68-73 (cells), 111-113, 133-137 (subcells),
    173-177, 195-202 (vertices) and 234, 246-248 (edges): room for n+1 entries,
    n+1 are set.  [d] is the number of entries reserved per row. *)
Definition set_offsets (m n d : nat) : outcome (list Z) :=
  for_ m (fun i off => wr off i (Z.of_nat (i * d))) (allocate (S n)).
Definition offsets (n d : nat) : outcome (list Z) := set_offsets (S n) n d.
(** tdymesh.c:279-281, 300-315 (faces): room for n+1 entries, n are set. *)
Definition face_offsets (n d : nat) : outcome (list Z) := set_offsets n n d.

(** ** Access: tdymesh.c:935-1045, 1083-1285, 1336-1459 *)

(** Where the row starts, and how long it is said to be. *)
Definition get (off : list Z) (i : nat) : outcome (Z * Z) :=
  do o <- rd off i;
  do e <- rd off (S i);
  Ok (o, e - o).
(** The entries the caller then reads. *)
Definition get_ids {A} (off : list Z) (ids : list A) (i : nat) : outcome (list A) :=
  do r <- get off i;
  for_ (Z.to_nat (snd r)) (fun j l => do v <- rdz ids (fst r + Z.of_nat j); Ok (l ++ [v])%list) [].

(** ** Compressed format *)

Section Convert.
Context {A : Type}.
Variable blank : A.   (* -1, or a vector of -1 *)

(** ConvertMeshElementToCompressedFormat*, tdymeshplex.c:725-918: four copies that
    differ in the type of the entries only.  [n] elements, [d] entries reserved per
    element; [num], [off], [ids] are subelement_num, _offset and _id. *)
Definition copy_row (num : list nat) (i : nat) (old new : Z) (ids : list A) : outcome (list A) :=
  do k <- rd num i;
  for_ k (fun j ids => do v <- rdz ids (old + Z.of_nat j); wrz ids (new + Z.of_nat j) v) ids.
Record conversion := mkConversion { k_count : nat; k_new : Z; k_off : list Z; k_ids : list A }.
Definition convert_element (update : bool) (num : list nat) (i : nat) (s : conversion) : outcome conversion :=
  do prev <- rd num (i - 1);
  let new := k_new s + Z.of_nat prev in
  do old <- rd (k_off s) i;
  do ids <- copy_row num i old new (k_ids s);
  do k <- rd num i;
  do off <- (if update then wr (k_off s) i new else Ok (k_off s));
  Ok (mkConversion (k_count s + k) new off ids).
Definition convert (n d : nat) (update : bool) (num : list nat) (off : list Z) (ids : list A) : outcome (list Z * list A) :=
  do n0 <- rd num 0;
  do s <- loop (n - 1) 1 (convert_element update num) (mkConversion n0 0 off ids);
  do off <- (if update then
               do last <- rdz num (Z.of_nat n - 1);
               wr (k_off s) n (k_new s + Z.of_nat last)
             else Ok (k_off s));
  do ids <- loop (d * n - k_count s) (k_count s) (fun i ids => wr ids i blank) (k_ids s);
  Ok (off, ids).

(** Arrays that share their offsets are converted one after the other, and only the
    last conversion updates the offsets: tdymeshplex.c:988-1033, 1064-1077. *)
Fixpoint convert_all (n d : nat) (num : list nat) (off : list Z) (arrays : list (list A)) : outcome (list Z * list (list A)) :=
  match arrays with
  | [] => Ok (off, [])
  | [a] => do r <- convert n d true num off a; Ok (fst r, [snd r])
  | a :: rest =>
    do r <- convert n d false num off a;
    do r' <- convert_all n d num (fst r) rest;
    Ok (fst r', snd r :: snd r')
  end.
End Convert.

(** ** Connectivity *)

(** DMPlexGetDepthStratum. *)
Record strata := mkStrata { v_start : Z; v_end : Z; e_start : Z; e_end : Z; f_start : Z; f_end : Z }.
(** tdymeshplex.c:599-602. *)
Definition within (p s e : Z) : bool := (s <=? p) && (p <? e).

(** Number of cells, vertices, edges and faces, and the entries reserved per row:
    vertices, edges and faces of a cell, cells of an edge and of a face
    (AllocateCells, AllocateEdges, AllocateFaces), cells and faces of a vertex
    (AllocateVertices; the second also for the subcells), vertices of a face. *)
Record sizes := mkSizes {
  n_cell : nat; n_vert : nat; n_edge : nat; n_face : nat;
  d_cv : nat; d_ce : nat; d_cf : nat; d_ec : nat; d_fc : nat; d_vc : nat; d_vf : nat; d_fv : nat
}.
(** offset[i] before the conversion. *)
Definition row (n d : nat) (i : Z) : outcome Z :=
  if (0 <=? i) && (i <? Z.of_nat n) then Ok (i * Z.of_nat d) else UB.

(** cells->vertex_ids, edge_ids, face_ids; vertices->num_internal_cells,
    internal_cell_ids, subcell_ids; edges->cell_ids; faces->cell_ids, num_cells. *)
Record conn := mkConn {
  c_vert : list Z; c_edge : list Z; c_face : list Z;
  v_ncell : list nat; v_cell : list Z; v_sub : list Z;
  e_cell : list Z; f_cell : list Z; f_ncell : list nat
}.
Definition initial (z : sizes) : conn := mkConn
  (allocate (n_cell z * d_cv z)) (allocate (n_cell z * d_ce z)) (allocate (n_cell z * d_cf z))
  (repeat 0%nat (n_vert z)) (allocate (n_vert z * d_vc z)) (allocate (n_vert z * d_vf z))
  (allocate (n_edge z * d_ec z)) (allocate (n_face z * d_fc z)) (repeat 0%nat (n_face z)).

(** The first of the entries off+j, off+j+1, ... (n of them) that is free. *)
Fixpoint free_slot (free : Z -> bool) (ids : list Z) (off : Z) (j n : nat) : outcome (option nat) :=
  match n with
  | O => Ok None
  | S n => do v <- rdz ids (off + Z.of_nat j); if free v then Ok (Some j) else free_slot free ids off (S j) n
  end.

(** DetermineConnectivity, tdymeshplex.c:3217-3240: the closure is a vertex, the
    k-th of the cell. *)
Definition visit_vertex (z : sizes) (icell : nat) (ivertex : Z) (k : nat) (s : conn) : outcome conn :=
  do co <- row (n_cell z) (d_cv z) (Z.of_nat icell);
  do cv <- wrz (c_vert s) (co + Z.of_nat k) ivertex;
  do vo <- row (n_vert z) (d_vc z) ivertex;
  do so <- row (n_vert z) (d_vf z) ivertex;
  do j <- free_slot (Z.eqb (-1)) (v_cell s) vo 0 (d_vc z);
  match j with
  | None => Err
  | Some j =>
    do n <- rdz (v_ncell s) ivertex;
    do vn <- wrz (v_ncell s) ivertex (S n);
    do vc <- wrz (v_cell s) (vo + Z.of_nat j) (Z.of_nat icell);
    do vs <- wrz (v_sub s) (so + Z.of_nat j) (Z.of_nat k);
    Ok (mkConn cv (c_edge s) (c_face s) vn vc vs (e_cell s) (f_cell s) (f_ncell s))
  end.
(** Lines 3241-3254: an edge.  The first two entries only. *)
Definition visit_edge (z : sizes) (icell : nat) (iedge : Z) (k : nat) (s : conn) : outcome conn :=
  do co <- row (n_cell z) (d_ce z) (Z.of_nat icell);
  do ce <- wrz (c_edge s) (co + Z.of_nat k) iedge;
  do eo <- row (n_edge z) (d_ec z) iedge;
  do j <- free_slot (Z.eqb (-1)) (e_cell s) eo 0 2;
  do ec <- match j with Some j => wrz (e_cell s) (eo + Z.of_nat j) (Z.of_nat icell) | None => Ok (e_cell s) end;
  Ok (mkConn (c_vert s) ce (c_face s) (v_ncell s) (v_cell s) (v_sub s) ec (f_cell s) (f_ncell s)).
(** Lines 3255-3269: a face. *)
Definition visit_face (z : sizes) (icell : nat) (iface : Z) (k : nat) (s : conn) : outcome conn :=
  do co <- row (n_cell z) (d_cf z) (Z.of_nat icell);
  do fo <- row (n_face z) (d_fc z) iface;
  do cf <- wrz (c_face s) (co + Z.of_nat k) iface;
  do j <- free_slot (fun v => v <? 0) (f_cell s) fo 0 2;
  do r <- match j with
          | Some j => do fc <- wrz (f_cell s) (fo + Z.of_nat j) (Z.of_nat icell);
                      do n <- rdz (f_ncell s) iface; do fn <- wrz (f_ncell s) iface (S n); Ok (fc, fn)
          | None => Ok (f_cell s, f_ncell s)
          end;
  Ok (mkConn (c_vert s) (c_edge s) cf (v_ncell s) (v_cell s) (v_sub s) (e_cell s) (fst r) (snd r)).

(** Lines 3210-3271.  The closure of a cell: points at the even positions,
    orientations at the odd ones.  The counters are c2v_count, c2e_count, c2f_count. *)
Definition visit_point (t : strata) (z : sizes) (closure : list Z) (icell : nat) (i : nat) (s : conn * (nat * nat * nat))
    : outcome (conn * (nat * nat * nat)) :=
  let '(cn, (kv, ke, kf)) := s in
  do p <- rd closure (2 * i);
  if within p (v_start t) (v_end t) then do cn <- visit_vertex z icell (p - v_start t) kv cn; Ok (cn, (S kv, ke, kf))
  else if within p (e_start t) (e_end t) then do cn <- visit_edge z icell (p - e_start t) ke cn; Ok (cn, (kv, S ke, kf))
  else if within p (f_start t) (f_end t) then do cn <- visit_face z icell (p - f_start t) kf cn; Ok (cn, (kv, ke, S kf))
  else Ok (cn, (kv, ke, kf)).
(** [size] is closureSize[icell]; the closure array is longer. *)
Definition visit_cell (t : strata) (z : sizes) (closures : list (nat * list Z)) (icell : nat) (cn : conn) : outcome conn :=
  do c <- rd closures icell;
  do s <- for_ (fst c) (visit_point t z (snd c) icell) (cn, (0%nat, 0%nat, 0%nat));
  Ok (fst s).
Definition cell_connectivity (t : strata) (z : sizes) (closures : list (nat * list Z)) : outcome conn :=
  for_ (n_cell z) (visit_cell t z closures) (initial z).

(** *** Faces: lines 3320-3403 *)

(** faces->num_vertices, vertex_ids; vertices->num_faces, face_ids, subface_ids,
    num_boundary_faces, boundary_face_ids. *)
Record fconn := mkFconn {
  f_nvert : list nat; f_vert : list Z;
  v_nface : list nat; v_face : list Z; v_subface : list Z;
  v_nbnd : list nat; v_bnd : list Z
}.
(** face_ids is reset to 0, tdymesh.c:204. *)
Definition finitial (z : sizes) : fconn := mkFconn
  (repeat 0%nat (n_face z)) (allocate (n_face z * d_fv z))
  (repeat 0%nat (n_vert z)) (repeat 0 (n_vert z * d_vf z)) (allocate (n_vert z * d_vf z))
  (repeat 0%nat (n_vert z)) (allocate (n_vert z * d_vf z)).

(** Lines 3341-3349. *)
Fixpoint listed (ids : list Z) (off : Z) (x : Z) (j n : nat) : outcome bool :=
  match n with
  | O => Ok false
  | S n => do v <- rdz ids (off + Z.of_nat j); if v =? x then Ok true else listed ids off x (S j) n
  end.
(** Lines 3337-3355. *)
Definition visit_face_vertex (z : sizes) (iface : nat) (ivertex : Z) (s : fconn) : outcome fconn :=
  do fo <- row (n_face z) (d_fv z) (Z.of_nat iface);
  do k <- rd (f_nvert s) iface;
  do fv <- wrz (f_vert s) (fo + Z.of_nat k) ivertex;
  do fn <- wr (f_nvert s) iface (S k);
  do vo <- row (n_vert z) (d_vf z) ivertex;
  do m <- rdz (v_nface s) ivertex;
  do found <- listed (v_face s) vo (Z.of_nat iface) 0 m;
  if found then Ok (mkFconn fn fv (v_nface s) (v_face s) (v_subface s) (v_nbnd s) (v_bnd s))
  else
    do vf <- wrz (v_face s) (vo + Z.of_nat m) (Z.of_nat iface);
    do vs <- wrz (v_subface s) (vo + Z.of_nat m) (Z.of_nat k);   (* num_vertices - 1 *)
    do vn <- wrz (v_nface s) ivertex (S m);
    Ok (mkFconn fn fv vn vf vs (v_nbnd s) (v_bnd s)).
(** Lines 3394-3402. *)
Definition mark_boundary (z : sizes) (iface : nat) (v : nat) (s : fconn) : outcome fconn :=
  do fo <- row (n_face z) (d_fv z) (Z.of_nat iface);
  do x <- rdz (f_vert s) (fo + Z.of_nat v);
  do bo <- row (n_vert z) (d_vf z) x;
  do m <- rdz (v_nbnd s) x;
  do vb <- wrz (v_bnd s) (bo + Z.of_nat m) (Z.of_nat iface);
  do vn <- wrz (v_nbnd s) x (S m);
  Ok (mkFconn (f_nvert s) (f_vert s) (v_nface s) (v_face s) (v_subface s) vn vb).
(** A face: closureSize and closure, and DMPlexGetSupportSize. *)
Definition connect_face (t : strata) (z : sizes) (fs : list (nat * list Z * nat)) (iface : nat) (s : fconn) : outcome fconn :=
  do f <- rd fs iface;
  let '(size, closure, support) := f in
  do s <- for_ size (fun i s =>
            do p <- rd closure (2 * i);
            if within p (v_start t) (v_end t) then visit_face_vertex z iface (p - v_start t) s else Ok s) s;
  if (support =? 2)%nat then Ok s
  else do k <- rd (f_nvert s) iface; for_ k (mark_boundary z iface) s.
Definition face_connectivity (t : strata) (z : sizes) (fs : list (nat * list Z * nat)) : outcome fconn :=
  for_ (n_face z) (connect_face t z fs) (finitial z).

(** *** Room *)

(** TDyMaxNumOfAElmTypeSharingOtherElmType, src/tdyutils.c:164-182: the largest
    number of points in [lo, hi) in one of the closures. *)
Definition count_in (lo hi : Z) (c : nat * list Z) : outcome nat :=
  for_ (fst c) (fun i n => do p <- rd (snd c) (2 * i); Ok (if within p lo hi then S n else n)) 0%nat.
Definition most (lo hi : Z) (closures : list (nat * list Z)) : outcome nat :=
  for_ (length closures) (fun a r => do c <- rd closures a; do n <- count_in lo hi c; Ok (Nat.max r n)) 0%nat.

(** *** The tables after the conversion *)

(** ConvertCellsToCompressedFormat, tdymeshplex.c:925-959; every cell has the
    same number of vertices (AllocateCells, tdymesh.c:59-66). *)
Definition cell_table (n d : nat) (ids : list Z) : outcome (list Z * list Z) :=
  do off <- offsets n d; convert (-1) n d true (repeat d n) off ids.
(** ConvertVerticesToCompressedFormat, tdymeshplex.c:1079-1087. *)
Definition vertex_cell_table (z : sizes) (s : conn) : outcome (list Z * list Z) :=
  do off <- offsets (n_vert z) (d_vc z); convert (-1) (n_vert z) (d_vc z) true (v_ncell s) off (v_cell s).
Definition vertex_subcell_table (z : sizes) (s : conn) : outcome (list Z * list Z) :=
  do off <- offsets (n_vert z) (d_vf z); convert (-1) (n_vert z) (d_vf z) true (v_ncell s) off (v_sub s).
(** Lines 1064-1077 and 1089-1092. *)
Definition vertex_face_tables (z : sizes) (s : fconn) : outcome (list Z * list (list Z)) :=
  do off <- offsets (n_vert z) (d_vf z); convert_all (-1) (n_vert z) (d_vf z) (v_nface s) off [v_face s; v_subface s].
Definition vertex_boundary_table (z : sizes) (s : fconn) : outcome (list Z * list Z) :=
  do off <- offsets (n_vert z) (d_vf z); convert (-1) (n_vert z) (d_vf z) true (v_nbnd s) off (v_bnd s).
(** ConvertFacesToCompressedFormat, tdymeshplex.c:1103-1122. *)
Definition face_vertex_table (z : sizes) (s : fconn) : outcome (list Z * list Z) :=
  do off <- face_offsets (n_face z) (d_fv z); convert (-1) (n_face z) (d_fv z) true (f_nvert s) off (f_vert s).
(** faces->cell_ids is not converted. *)
Definition face_cell_table (z : sizes) (s : conn) : outcome (list Z * list Z) :=
  do off <- face_offsets (n_face z) (d_fc z); Ok (off, f_cell s).
