(** Model of how the cells and boundary faces around a vertex are put in order for the
    multi-point flux scheme: DetermineUpwindFacesForSubcell_PlanarVerticalFaces and the
    functions it uses (src/fv/share/tdymeshplex.c:1716-1731, 1952-2482, 2571-2692). *)
From Coq Require Import Reals List Bool Arith ZArith.
From Verif Require Import Prelude Arrays Geom Numbering.
Import ListNotations.
Local Open Scope nat_scope.

(** What is read of the mesh besides the [corner]: coordinates of the vertices, centroids
    of the cells and of the faces, the faces of the cells. *)
Record shape := mkShape { h_vx : list v3; h_cc : list v3; h_fc : list v3; h_cfaces : list (list nat) }.

(** VerticesHaveSameXYCoords, lines 1716-1731. *)
Definition same_xy (h : shape) (a b : nat) : outcome bool :=
  do x <- rd (h_vx h) a;
  do y <- rd (h_vx h) b;
  Ok (if Rlt_dec ((vx x - vx y) ^ 2 + (vy x - vy y) ^ 2) (1 / 10 ^ 14) then true else false).

(** AreCellsNeighbors, lines 1952-1974, for cells of the mesh. *)
Definition faces_of_cell (h : shape) (c : nat) : list nat := nth c (h_cfaces h) [].
Definition AreCellsNeighbors (h : shape) (c d : nat) : bool :=
  existsb (fun f => existsb (Nat.eqb f) (faces_of_cell h d)) (faces_of_cell h c).
Definition in_mesh (h : shape) (l : list nat) : bool := forallb (fun c => c <? length (h_cfaces h)) l.

Section order.
Variable nb : nat -> nat -> bool.

(** Lines 1986-1998: the number of neighbours of each cell among the others. *)
Definition b2n (b : bool) : nat := if b then 1 else 0.
Fixpoint counts (l : list nat) : list nat :=
  match l with
  | [] => []
  | c :: l =>
      let e := map (fun d => b2n (nb c d)) l in
      list_sum e :: map (fun p => fst p + snd p) (combine e (counts l))
  end.

(** Lines 2000-2049: if the numbers differ, the two cells with the smallest number come
    first and last. *)
Definition ends_apart (l : list nat) : outcome (list nat) :=
  let n := counts l in
  let mn := fold_left Nat.min n (length l) in
  let mx := fold_left Nat.max n 0 in
  if mn =? mx then Ok l else
  let few := map snd (filter (fun p => fst p =? mn) (combine n l)) in
  let more := map snd (filter (fun p => mn <? fst p) (combine n l)) in
  match few with
  | [a; b] => Ok (a :: more ++ [b])
  | _ => Err
  end.

(** Lines 2056-2088: the first neighbour that has not been used. *)
Fixpoint pick (c : nat) (l : list nat) : option (nat * list nat) :=
  match l with
  | [] => None
  | d :: l => if nb c d then Some (d, l)
              else match pick c l with Some (e, l) => Some (e, d :: l) | None => None end
  end.
Fixpoint chain (n c : nat) (l : list nat) : outcome (list nat) :=
  match n with
  | O => Ok [c]
  | S n => match pick c l with
           | None => Err
           | Some (d, l) => do r <- chain n d l; Ok (c :: r)
           end
  end.

(** ArrangeCellsInCircularOrder, lines 1977-2093 (for a list that is not empty). *)
Definition ArrangeCellsInCircularOrder (l : list nat) : outcome (list nat) :=
  do l <- ends_apart l;
  match l with
  | [] => UB
  | c :: l => chain (length l) c l
  end.

(** RearrangeCellsInListAsNeighbors, lines 2198-2221: as many entries of the second list
    as the first has are compared and replaced. *)
Fixpoint partners (l1 l2 : list nat) (short : bool) : outcome (list nat) :=
  match l1 with
  | [] => Ok []
  | a :: l1 =>
      match find (nb a) l2 with
      | Some d => do r <- partners l1 l2 short; Ok (d :: r)
      | None => if short then UB else Err
      end
  end.
Definition RearrangeCellsInListAsNeighbors (l1 l2 : list nat) : outcome (list nat) :=
  do r <- partners l1 (firstn (length l1) l2) (length l2 <? length l1);
  Ok (r ++ skipn (length l1) l2).
End order.

(** IDofFaceSharedByTwoCellsForACommonVertex, lines 2096-2128: without such a face the
    number of the error (PETSC_ERR_USER = 83) is returned. *)
Definition side_of (k : corner) (f c : nat) : bool :=
  match nth_error (k_fcells k) f with
  | Some (a, b) => (Z.of_nat c =? a)%Z || (Z.of_nat c =? b)%Z
  | None => false
  end.
Definition between_cells (k : corner) (c d f : nat) : bool :=
  match nth_error (k_fcells k) f with
  | Some (a, b) => ((a =? Z.of_nat c)%Z || (a =? Z.of_nat d)%Z) && ((b =? Z.of_nat c)%Z || (b =? Z.of_nat d)%Z)
  | None => false
  end.
Definition shared_face (k : corner) (c d : nat) : nat :=
  match find (between_cells k c d) (k_faces k) with Some f => f | None => 83 end.

(** PointsAreInAntiClockDirInXYPlane, lines 2131-2150: the third component of the cross
    product. *)
Definition anticlockwise (a b c : v3) : bool :=
  if Rlt_dec 0 ((vx b - vx a) * (vy c - vy a) - (vy b - vy a) * (vx c - vx a)) then true else false.

(** ArrangeCellsInAntiClockwiseDirection, lines 2155-2194. *)
Definition ArrangeCellsInAntiClockwiseDirection (h : shape) (k : corner) (l : list nat) : outcome (list nat) :=
  match l with
  | c :: d :: _ =>
      do a <- rd (h_vx h) (k_iv k);
      do b <- rd (h_cc h) c;
      do x <- rd (h_fc h) (shared_face k c d);
      Ok (if anticlockwise a b x then l else rev l)
  | _ => UB
  end.

(** RearrangeCellsInAntiClockwiseDir, lines 2224-2255. *)
Definition RearrangeCellsInAntiClockwiseDir (h : shape) (k : corner) (abv blw : list nat)
  : outcome (list nat * list nat) :=
  if negb (in_mesh h abv && in_mesh h blw) then UB else
  let nb := AreCellsNeighbors h in
  do o <- ArrangeCellsInCircularOrder nb (match abv with [] => blw | _ => abv end);
  do o <- ArrangeCellsInAntiClockwiseDirection h k o;
  match abv, blw with
  | [], _ => Ok ([], o)
  | _, [] => Ok (o, [])
  | _, _ => do b <- RearrangeCellsInListAsNeighbors nb o blw; Ok (o, b)
  end.

(** Does a face have another vertex straight above or below (lines 2303-2311)? *)
Fixpoint upright_in (h : shape) (iv : nat) (vs : list nat) : outcome bool :=
  match vs with
  | [] => Ok false
  | v :: vs =>
      if v =? iv then upright_in h iv vs
      else do b <- same_xy h iv v; if b then Ok true else upright_in h iv vs
  end.
Definition is_upright (h : shape) (k : corner) (f : nat) : outcome bool :=
  do vs <- rd (k_fverts k) f;
  upright_in h (k_iv k) vs.

(** Lines 2291-2318: the first boundary face of the vertex, except number [skip], that
    belongs to the cell and is upright; [ii] counts. *)
Fixpoint find_upright (h : shape) (k : corner) (c : nat) (skip : option nat) (ii : nat) (l : list nat)
  : outcome (option nat) :=
  match l with
  | [] => Ok None
  | f :: l =>
      let skipped := match skip with Some j => ii =? j | None => false end in
      if negb skipped && side_of k f c then
        do b <- is_upright h k f;
        if b then Ok (Some ii) else find_upright h k c skip (S ii) l
      else find_upright h k c skip (S ii) l
  end.

(** AddTwoBndFacesOfTwoCellsInTraversalDirection, lines 2258-2324: one for the last cell,
    then one for the first; [n] is the number of cells of the level. *)
Definition put (k : corner) (t : list Z) (i : nat) (j : option nat) : outcome (list Z) :=
  match j with
  | Some j => wr t i (Z.of_nat (length (k_cells k) + j))
  | None => Ok t
  end.
Definition AddTwoBndFacesOfTwoCells (h : shape) (k : corner) (l : list nat) (t : list Z) : outcome (list Z) :=
  let n := length l in
  do j0 <- find_upright h k (last l 0) None 0 (k_bnd k);
  do t <- put k t n j0;
  do j1 <- find_upright h k (hd 0 l) j0 0 (k_bnd k);
  put k t (n + 1) j1.

(** AddTwoBndFacesOfACellInTraversalDirection, lines 2327-2384; the error raised unless
    there are two is not looked at by the caller (line 2432), which then goes on with an
    unchanged array. *)
Fixpoint numbered_from {A} (i : nat) (l : list A) : list (nat * A) :=
  match l with [] => [] | x :: l => (i, x) :: numbered_from (S i) l end.
Definition AddTwoBndFacesOfACell (h : shape) (k : corner) (c : nat) (t : list Z) : outcome (list Z) :=
  match filter (fun p => side_of k (snd p) c) (numbered_from 0 (k_bnd k)) with
  | [(i1, f1); (i2, _)] =>
      do a <- rd (h_vx h) (k_iv k);
      do b <- rd (h_cc h) c;
      do x <- rd (h_fc h) f1;
      let (j1, j2) := if anticlockwise a b x then (i1, i2) else (i2, i1) in
      do t <- put k t 1 (Some j1);
      put k t 2 (Some j2)
  | _ => Ok t
  end.

(** ConvertCellsAntiClockwiseDirInTraversalDir, lines 2386-2436. *)
Fixpoint put_cells (k : corner) (l : list nat) (i : nat) (t : list Z) : outcome (list Z) :=
  match l with
  | [] => Ok t
  | c :: l =>
      match first_at (Nat.eqb c) (k_cells k) 0 with
      | None => Err
      | Some j => do t <- wr t i (Z.of_nat j); put_cells k l (S i) t
      end
  end.
Definition ConvertCells (h : shape) (k : corner) (l : list nat) (t : list Z) : outcome (list Z) :=
  match l with
  | [] => Ok t
  | [c] => do t <- put_cells k l 0 t;
           match k_bnd k with [] => Ok t | _ => AddTwoBndFacesOfACell h k c t end
  | _ => do t <- put_cells k l 0 t;
         match k_bnd k with [] => Ok t | _ => AddTwoBndFacesOfTwoCells h k l t end
  end.

(** AddUpDownBndFacesOfCellsInTraversalDirection, lines 2438-2482.  [t] is the row of the
    level with cells, [o] the other one; [used] the boundary faces that have been found. *)
Definition used_in (k : corner) (t : list Z) (j : nat) : bool :=
  existsb (fun x => (x =? Z.of_nat (length (k_cells k) + j))%Z) t.
Fixpoint put_flat (k : corner) (l : list nat) (i : nat) (used : nat -> bool) (o : list Z) : outcome (list Z) :=
  match l with
  | [] => Ok o
  | c :: l =>
      match find (fun p => negb (used (fst p)) && side_of k (snd p) c) (numbered_from 0 (k_bnd k)) with
      | Some (j, _) =>
          do o <- wr o i (Z.of_nat (length (k_cells k) + j));
          put_flat k l (S i) (fun x => used x || (x =? j)) o
      | None => put_flat k l (S i) used o
      end
  end.
Definition AddUpDownBndFaces (k : corner) (l : list nat) (t o : list Z) : outcome (list Z) :=
  put_flat k l 0 (used_in k t) o.

(** DetermineUpwindFacesForSubcell_PlanarVerticalFaces up to the connections, lines
    2612-2680: the two rows of cell_traversal.  [abv] and [blw] are the cells recorded
    above and below the vertex. *)
Definition Traversal (h : shape) (k : corner) (abv blw : list nat) : outcome (list Z * list Z) :=
  do ab <- (if (1 <? length abv) || (1 <? length blw) then RearrangeCellsInAntiClockwiseDir h k abv blw
            else Ok (abv, blw));
  let (abv, blw) := ab : list nat * list nat in
  let empty := repeat (-1)%Z (length (k_cells k) + length (k_bnd k)) in
  do t0 <- ConvertCells h k abv empty;
  do t1 <- ConvertCells h k blw empty;
  match abv, blw with
  | [], _ => do o <- AddUpDownBndFaces k blw t1 t0; Ok (o, t1)
  | _, [] => do o <- AddUpDownBndFaces k abv t0 t1; Ok (t0, o)
  | _, _ => Ok (t0, t1)
  end.

(** The whole function, lines 2571-2692. *)
Definition DetermineUpwindFaces (cap : nat) (h : shape) (k : corner) (abv blw : list nat) : outcome numbers :=
  do t <- Traversal h k abv blw;
  NumberVertex cap k (fst t) (snd t).
