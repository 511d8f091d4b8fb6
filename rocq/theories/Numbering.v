(** Model of how the faces around a vertex are numbered for the multi-point flux scheme:
    SetUpToDownConnections and SetupUpwindFacesForSubcell
    (src/fv/share/tdymeshplex.c:2484-2569 and 1531-1713).

    Positions: the cells around the vertex are 0 .. ncells-1 (their positions in
    internal_cell_ids), its boundary faces ncells .. ncells+nfaces_bnd-1 (behind the
    cells, their positions in boundary_face_ids).  -1 marks an unused entry. *)
From Coq Require Import List Bool Arith ZArith.
From Verif Require Import Prelude Arrays.
Import ListNotations.
Local Open Scope Z_scope.

(** One row of cell_up2dw: upwind and downwind position. *)
Definition conn : Type := (Z * Z)%type.
(** A write to cell_up2dw[count]; the array has max_vertex_faces rows (line 2661). *)
Definition push (cap : nat) (l : list conn) (c : conn) : outcome (list conn) :=
  if (length l <? cap)%nat then Ok (l ++ [c]) else UB.

(** Lines 2497-2520: the connections within one level.  [n] is the number of turns left;
    the last entry of the array, or the last one before the first -1, is connected to
    entry 0. *)
Fixpoint along (cap : nat) (nc : Z) (right : bool) (t : list Z) (n ii : nat) (l : list conn)
  : outcome (list conn) :=
  match n with
  | O => Ok l
  | S n =>
      do aa <- rd t ii;
      if aa =? -1 then Ok l else
      do b0 <- rd t (if (n =? 0)%nat then 0 else S ii)%nat;
      do bb <- (if b0 =? -1 then rd t 0 else Ok b0);
      if (nc <=? aa) && (nc <=? bb) then along cap nc right t n (S ii) l
      else do l <- push cap l (if right then (aa, bb) else (bb, aa));
           along cap nc right t n (S ii) l
  end.

(** Lines 2524-2538: the connections between the levels. *)
Fixpoint across (cap : nat) (nc : Z) (t0 t1 : list Z) (n ii : nat) (l : list conn) : outcome (list conn) :=
  match n with
  | O => Ok l
  | S n =>
      do aa <- rd t0 ii;
      do bb <- rd t1 ii;
      if (aa =? -1) || (bb =? -1) then Ok l else
      if (nc <=? aa) && (nc <=? bb) then across cap nc t0 t1 n (S ii) l
      else do l <- push cap l (if Nat.even ii then (aa, bb) else (bb, aa));
           across cap nc t0 t1 n (S ii) l
  end.

(** Lines 2540-2565: connections between cells first, both parts in their old order. *)
Definition cell_cell (nc : Z) (c : conn) : bool := (fst c <? nc) && (snd c <? nc).
Definition cells_first (nc : Z) (l : list conn) : list conn :=
  filter (cell_cell nc) l ++ filter (fun c => negb (cell_cell nc c)) l.

(** SetUpToDownConnections, lines 2484-2569.  [t0] and [t1] are cell_traversal[0] and
    cell_traversal[1], each with ncells+nfaces_bnd entries. *)
Definition SetUpToDownConnections (cap ncells nbnd : nat) (t0 t1 : list Z) : outcome (list conn) :=
  let nc := Z.of_nat ncells in
  do l <- along cap nc true t0 (ncells + nbnd) 0 [];
  do l <- along cap nc false t1 (ncells + nbnd) 0 l;
  do l <- across cap nc t0 t1 (ncells + nbnd) 0 l;
  Ok (cells_first nc l).

(** What SetupUpwindFacesForSubcell reads: the vertex, its cells (internal_cell_ids), its
    boundary faces (boundary_face_ids), the three faces of the sub-cell of each of its
    cells, its faces (face_ids); for all faces of the mesh the two cells (negative on the
    outside), is_internal and the vertices. *)
Record corner := mkCorner {
  k_iv : nat; k_cells : list nat; k_bnd : list nat;
  k_sub : list (nat * nat * nat); k_faces : list nat;
  k_fcells : list (Z * Z); k_internal : list bool; k_fverts : list (list nat)
}.

(** The nested loops over the cells and over the three faces of each sub-cell, as one list:
    position of the cell, number of the cell, number of the face.  Each cell has its own
    sub-cell at the vertex, so that every entry is visited once. *)
Fixpoint slots_from (i : nat) (cells : list nat) (sub : list (nat * nat * nat)) : list (nat * nat * nat) :=
  match cells, sub with
  | c :: cells, (f0, f1, f2) :: sub => (i, c, f0) :: (i, c, f1) :: (i, c, f2) :: slots_from (S i) cells sub
  | _, _ => []
  end.
Definition slots (k : corner) : list (nat * nat * nat) := slots_from 0 (k_cells k) (k_sub k).

Fixpoint first_at {A} (p : A -> bool) (l : list A) (i : nat) : option nat :=
  match l with
  | [] => None
  | x :: l => if p x then Some i else first_at p l (S i)
  end.

(** TDyReturnIndexInList, src/tdyutils.c:465-482: an absent value gives the number of
    the error (PETSC_ERR_LIB = 76), which the caller uses as an index. *)
Definition index_in_list (l : list nat) (x : Z) : Z :=
  match first_at (fun c => Z.of_nat c =? x) l 0 with
  | Some i => Z.of_nat i
  | None => 76
  end.

(** Lines 1589-1592: the direction of a boundary face, PETSC_TRUE = 1; without a
    connection the entry keeps its value. *)
Fixpoint outer_up (l : list conn) (face cell : Z) : option Z :=
  match l with
  | [] => None
  | (a, b) :: l =>
      if (a =? face) && (b =? cell) then Some 1
      else if (b =? face) && (a =? cell) then Some 0
      else outer_up l face cell
  end.
(** Lines 1602-1616: number and direction of an internal face. *)
Fixpoint inner_no (l : list conn) (ii : Z) (c1 c2 : Z) (is1 is2 : bool) : option (Z * Z) :=
  match l with
  | [] => None
  | (a, b) :: l =>
      if (a =? c1) && (b =? c2) then Some (ii, if is1 then 1 else 0)
      else if (a =? c2) && (b =? c1) then Some (ii, if is2 then 1 else 0)
      else inner_no l (ii + 1) c1 c2 is1 is2
  end.

(** Lines 1572-1618 for one face of a sub-cell: face_unknown_idx, is_face_up and the new
    boundary_cell_count.  Both entries are -1 before (src/fv/share/tdymesh.c:116-118). *)
Definition number_face (k : corner) (ups : list conn) (nin : Z) (s : nat * nat * nat) (cnt : Z)
  : outcome (Z * Z * Z) :=
  let '(i, c, f) := s in
  do fc <- rd (k_fcells k) f;
  if (fst fc <? 0) || (snd fc <? 0) then
    match first_at (Nat.eqb f) (k_bnd k) 0 with
    | None => UB
    | Some j =>
        let up := match outer_up ups (Z.of_nat (length (k_cells k) + j)) (Z.of_nat i) with
                  | Some u => u | None => -1 end in
        Ok (cnt + nin, up, cnt + 1)
    end
  else
    let c1 := index_in_list (k_cells k) (fst fc) in
    let c2 := index_in_list (k_cells k) (snd fc) in
    match inner_no ups 0 c1 c2 (Z.of_nat c =? fst fc) (Z.of_nat c =? snd fc) with
    | Some (ii, u) => Ok (ii, u, cnt)
    | None => Ok (-1, -1, cnt)
    end.
Fixpoint number_faces (k : corner) (ups : list conn) (nin : Z) (l : list (nat * nat * nat)) (cnt : Z)
  : outcome (list (Z * Z)) :=
  match l with
  | [] => Ok []
  | s :: l =>
      do r <- number_face k ups nin s cnt;
      let '(unk, up, cnt) := r in
      do rest <- number_faces k ups nin l cnt;
      Ok ((unk, up) :: rest)
  end.

(** Lines 1547-1552. *)
Fixpoint count_internal (k : corner) (l : list nat) : outcome Z :=
  match l with
  | [] => Ok 0
  | f :: l => do b <- rd (k_internal k) f; do n <- count_internal k l; Ok (if b then n + 1 else n)
  end.

(** Lines 1623-1648: nflux_bc_up. *)
Fixpoint count_up (k : corner) (l : list (nat * nat * nat)) (num : list (Z * Z)) : outcome Z :=
  match l, num with
  | (_, _, f) :: l, (_, up) :: num =>
      do b <- rd (k_internal k) f;
      do n <- count_up k l num;
      Ok (if b then n else if up =? 1 then n + 1 else n)
  | _, _ => Ok 0
  end.

(** A write to the vertex's part of face_ids. *)
Definition wrz (a : list nat) (i : Z) (x : nat) : outcome (list nat) :=
  if i <? 0 then UB else wr a (Z.to_nat i) x.

(** Lines 1652-1694: face_flux_idx of each face and the new face_ids.  The test of
    is_face_up is for "not zero". *)
Fixpoint place_faces (k : corner) (nin nup : Z) (l : list (nat * nat * nat)) (num : list (Z * Z))
  (u d : Z) (vf : list nat) : outcome (list Z * list nat) :=
  match l, num with
  | (_, _, f) :: l, (unk, up) :: num =>
      do b <- rd (k_internal k) f;
      if b then
        do vf <- wrz vf unk f;
        do r <- place_faces k nin nup l num u d vf;
        Ok (unk :: fst r, snd r)
      else if negb (up =? 0) then
        do vf <- wrz vf (nin + u) f;
        do r <- place_faces k nin nup l num (u + 1) d vf;
        Ok (nin + u :: fst r, snd r)
      else
        do vf <- wrz vf (nin + nup + d) f;
        do r <- place_faces k nin nup l num u (d + 1) vf;
        Ok (nin + d :: fst r, snd r)
  | _, _ => Ok ([], vf)
  end.

(** Lines 1698-1710: subface_ids. *)
Fixpoint subfaces (k : corner) (vf : list nat) : outcome (list nat) :=
  match vf with
  | [] => Ok []
  | f :: vf =>
      do vs <- rd (k_fverts k) f;
      match first_at (Nat.eqb (k_iv k)) vs 0 with
      | None => Err
      | Some i => do r <- subfaces k vf; Ok (i :: r)
      end
  end.

(** The result: face_unknown_idx, is_face_up and face_flux_idx of the faces of the
    sub-cells (in the order of [slots]), face_ids and subface_ids of the vertex. *)
Record numbers := mkNumbers {
  n_unk : list Z; n_up : list Z; n_flux : list Z; n_faces : list nat; n_subfaces : list nat
}.
(** SetupUpwindFacesForSubcell, lines 1531-1713. *)
Definition SetupUpwindFacesForSubcell (k : corner) (ups : list conn) : outcome numbers :=
  do nin <- count_internal k (k_faces k);
  do num <- number_faces k ups nin (slots k) 0;
  do nup <- count_up k (slots k) num;
  do r <- place_faces k nin nup (slots k) num 0 0 (k_faces k);
  do sf <- subfaces k (snd r);
  Ok (mkNumbers (map fst num) (map snd num) (fst r) (snd r) sf).

(** The end of DetermineUpwindFacesForSubcell_PlanarVerticalFaces, lines 2682-2684. *)
Definition NumberVertex (cap : nat) (k : corner) (t0 t1 : list Z) : outcome numbers :=
  do ups <- SetUpToDownConnections cap (length (k_cells k)) (length (k_bnd k)) t0 t1;
  SetupUpwindFacesForSubcell k ups.
