(** Model of how the cells above and below each vertex are found: FindCellsAboveAndBelowVertices
    and the functions it uses (src/fv/share/tdymeshplex.c:1716-1949, 2694-2827, called by
    SetupSubcells in lines 3039-3052). *)
From Coq Require Import Reals List Bool Arith ZArith.
From Verif Require Import Prelude Arrays Geom Numbering Traversal.
Import ListNotations.
Local Open Scope nat_scope.

(** What is read of the mesh: coordinates and faces of the cells ([t_h]), vertices of the
    cells, vertices of the faces, is_internal of the faces, cells of the vertices, is_local
    of the vertices. *)
Record terrain := mkTerrain { t_h : shape; t_cverts : list (list nat); t_fverts : list (list nat); t_fint : list bool;
                              t_vcells : list (list nat); t_local : list bool }.

(** The first other vertex of a cell with the same x and y (lines 1746-1758, 1784-1796,
    1858-1866). *)
Fixpoint partner_in (h : shape) (v : nat) (vs : list nat) : outcome (option nat) :=
  match vs with
  | [] => Ok None
  | w :: vs =>
      if w =? v then partner_in h v vs
      else do b <- same_xy h v w; if b then Ok (Some w) else partner_in h v vs
  end.
Definition partner (t : terrain) (c v : nat) : outcome (option nat) :=
  do vs <- rd (t_cverts t) c;
  partner_in (t_h t) v vs.

(** VertexIdWithSameXYInACell, lines 1734-1767: the number of the error (PETSC_ERR_USER =
    83) is returned as a vertex. *)
Definition VertexIdWithSameXYInACell (t : terrain) (c v : nat) : outcome nat :=
  do w <- partner t c v;
  Ok (match w with Some w => w | None => 83 end).

(** IsCellAboveTheVertex, lines 1771-1805: the number of the error counts as true. *)
Definition IsCellAboveTheVertex (t : terrain) (c v : nat) : outcome bool :=
  do w <- partner t c v;
  match w with
  | None => Ok true
  | Some w =>
      do y <- rd (h_vx (t_h t)) w;
      do x <- rd (h_vx (t_h t)) v;
      Ok (if Rlt_dec (vz x) (vz y) then true else false)
  end.

(** DetermineCellsAboveAndBelow, lines 1808-1949.  Lines 1823-1833. *)
Fixpoint split_levels (t : terrain) (v : nat) (cs : list nat) : outcome (list nat * list nat) :=
  match cs with
  | [] => Ok ([], [])
  | c :: cs =>
      do b <- IsCellAboveTheVertex t c v;
      do r <- split_levels t v cs;
      Ok (if b then (c :: fst r, snd r) else (fst r, c :: snd r))
  end.
(** Lines 1875-1894: for each face of the cell with both vertices, is it on the boundary? *)
Fixpoint side_flags (t : terrain) (v w : nat) (fs : list nat) : outcome (list bool) :=
  match fs with
  | [] => Ok []
  | f :: fs =>
      do vs <- rd (t_fverts t) f;
      if count_occ Nat.eq_dec vs v + count_occ Nat.eq_dec vs w =? 2 then
        do i <- rd (t_fint t) f;
        do r <- side_flags t v w fs;
        Ok (negb i :: r)
      else side_flags t v w fs
  end.
(** Lines 1850-1898: the number of boundary faces among the two; unless there are two,
    uninitialised or foreign memory is used. *)
Definition bnd_sides (t : terrain) (v c : nat) : outcome nat :=
  do w <- partner t c v;
  match w with
  | None => Err
  | Some w =>
      do fs <- rd (h_cfaces (t_h t)) c;
      do r <- side_flags t v w fs;
      match r with
      | [a; b] => Ok (b2n a + b2n b)
      | _ => UB
      end
  end.
Fixpoint all_sides (t : terrain) (v : nat) (l : list nat) : outcome (list nat) :=
  match l with
  | [] => Ok []
  | c :: l => do n <- bnd_sides t v c; do r <- all_sides t v l; Ok (n :: r)
  end.
(** Lines 1839-1931: boundary cells first and last; with more than two of them entries of
    the new list stay uninitialised and are copied. *)
Definition arrange_level (t : terrain) (v : nat) (l : list nat) : outcome (list nat) :=
  if length l <? 2 then Ok l else
  do n <- all_sides t v l;
  let rim := map snd (filter (fun p => 0 <? fst p) (combine n l)) in
  let rest := map snd (filter (fun p => fst p =? 0) (combine n l)) in
  match rim with
  | [] => Ok l
  | [a] => Ok (a :: rest)
  | [a; b] => Ok (a :: rest ++ [b])
  | _ => UB
  end.
Definition DetermineCellsAboveAndBelow (t : terrain) (v : nat) : outcome (list nat * list nat) :=
  do cs <- rd (t_vcells t) v;
  do ab <- split_levels t v cs;
  do a <- arrange_level t v (fst ab);
  do b <- arrange_level t v (snd ab);
  if (0 <? length a) && (0 <? length b) then
    if length a =? length b then Ok (a, b) else Err
  else if (length a =? 0) && (length b =? 0) then Err else Ok (a, b).

(** The tables cellsAbove and cellsBelow.  A row holds the number of cells and the cells;
    [None] is the initial number -1.  [cap] is the size of a row, so that a row has room for
    [cap - 1] cells. *)
Definition levels := list (option (list nat)).
Definition save (cap : nat) (x : levels) (v : nat) (l : list nat) : outcome levels :=
  if length l <? cap then wr x v (Some l) else UB.

(** SaveCellIdsAtOppositeLevel, lines 2694-2706 (called for levels with cells only). *)
Definition SaveCellIdsAtOppositeLevel (cap : nat) (t : terrain) (v : nat) (l : list nat) (x : levels) : outcome levels :=
  match l with
  | [] => Ok x
  | c :: _ => do w <- VertexIdWithSameXYInACell t c v; save cap x w l
  end.

(** FindCellsAboveAndBelowAVertex, lines 2708-2754; [false] if there was an error. *)
Definition FindCellsAboveAndBelowAVertex (cap : nat) (t : terrain) (v : nat) (x : levels * levels)
  : outcome (levels * levels * bool) :=
  match DetermineCellsAboveAndBelow t v with
  | UB => UB
  | Err => Ok (x, false)
  | Ok (a, b) =>
      do up <- save cap (fst x) v a;
      do dn <- save cap (snd x) v b;
      do dn <- SaveCellIdsAtOppositeLevel cap t v a dn;
      do up <- SaveCellIdsAtOppositeLevel cap t v b up;
      Ok ((up, dn), true)
  end.

(** FindCellsAtUninitializedLevel, lines 2756-2797: [l] are the cells of the other level. *)
Definition FindCellsAtUninitializedLevel (cap : nat) (t : terrain) (v : nat) (l : list nat) (x : levels) : outcome levels :=
  do cs <- rd (t_vcells t) v;
  if length cs =? length l then Ok x
  else save cap x v (filter (fun c => negb (existsb (Nat.eqb c) l)) cs).

(** FindCellsAboveAndBelowVertices, lines 2799-2827: one vertex, then all; an error ends the
    loop. *)
Definition visit (cap : nat) (t : terrain) (v : nat) (x : levels * levels) : outcome (levels * levels * bool) :=
  do i <- rd (t_local t) v;
  if negb i then Ok (x, true) else
  do a <- rd (fst x) v;
  do b <- rd (snd x) v;
  match a, b with
  | None, None => FindCellsAboveAndBelowAVertex cap t v x
  | Some l, None => do dn <- FindCellsAtUninitializedLevel cap t v l (snd x); Ok ((fst x, dn), true)
  | None, Some l => do up <- FindCellsAtUninitializedLevel cap t v l (fst x); Ok ((up, snd x), true)
  | Some _, Some _ => Ok (x, true)
  end.
Fixpoint visits (cap : nat) (t : terrain) (vs : list nat) (x : levels * levels) : outcome (levels * levels * bool) :=
  match vs with
  | [] => Ok (x, true)
  | v :: vs => do r <- visit cap t v x; if snd r then visits cap t vs (fst r) else Ok r
  end.
Definition unset (t : terrain) : levels := repeat None (length (t_vcells t)).
Definition FindCellsAboveAndBelowVertices (cap : nat) (t : terrain) : outcome (levels * levels * bool) :=
  visits cap t (seq 0 (length (t_vcells t))) (unset t, unset t).

(** TDyMaxNumberOfCellsSharingAVertex (src/tdyutils.c:164-200), the size of a row (lines
    3041-3044); the error is not looked at (line 3046). *)
Definition MaxNumberOfCellsSharingAVertex (t : terrain) : nat := fold_left Nat.max (map (@length nat) (t_vcells t)) 0.
Definition SetupLevels (t : terrain) : outcome (levels * levels) :=
  do r <- FindCellsAboveAndBelowVertices (MaxNumberOfCellsSharingAVertex t) t;
  Ok (fst r).

(** The copies in lines 2636-2650: -1 is the same as none. *)
Definition row_of (x : levels) (v : nat) : list nat :=
  match nth v x None with Some l => l | None => [] end.
