(** Model of the maps between local and global numbers in the finite element
    discretisations: CreateCellVertexMap and CreateCellVertexDirFaceMap
    (src/fe/tdyfe.c:19-147), the counts of vertices (src/tdycore.c:1478-1527), and the
    numbering of the velocity unknowns in TDySetup_BDM (src/fe/tdybdm.c:188-243).

    Simplifications: points of the mesh (DMPlex) are natural numbers, cells first
    (cStart = 0); the closure of a point is the list of its points without their
    orientations; X and N have [dim] components per point.  The checks that are only
    compiled with PETSC_USE_DEBUG are left out. *)
From Coq Require Import Reals List ZArith Bool Arith.
From Verif Require Import Prelude Arrays.
Import ListNotations.
Local Open Scope nat_scope.

(** What DMPlex tells.  [image c] is what DMPlexComputeCellGeometryFEM leaves in x[24]
    (tdyfe.c:36): the images of the 2^dim points of SetQuadrature; the rest of the
    buffer stays uninitialised. *)
Record plex := mkPlex {
  p_dim : nat; p_cells : nat; p_vStart : nat; p_vEnd : nat; p_fStart : nat; p_fEnd : nat;
  p_closure : nat -> list nat; p_X : nat -> nat -> R; p_N : nat -> nat -> R; p_image : nat -> list R
}.
Definition is_vertex (m : plex) (p : nat) : bool := (p_vStart m <=? p) && (p <? p_vEnd m).
Definition is_face (m : plex) (p : nat) : bool := (p_fStart m <=? p) && (p <? p_fEnd m).
Definition count_vertices (m : plex) (p : nat) : Z := Z.of_nat (length (filter (is_vertex m) (p_closure m p))).

(** TDyGetNumberOfCellVertices and TDyGetNumberOfFaceVertices (tdycore.c:1478-1527).
    SETERRQ returns the error code, here as if it were the count (PETSC_ERR_SUP is 56). *)
Definition PETSC_ERR_SUP : Z := 56.
Fixpoint uniform (nq : Z) (counts : list Z) : Z :=
  match counts with
  | [] => nq
  | q :: counts => let nq := if (nq =? -1)%Z then q else nq in if (nq =? q)%Z then uniform nq counts else PETSC_ERR_SUP
  end.
Definition NumberOfCellVertices (m : plex) : Z := uniform (-1) (map (count_vertices m) (seq 0 (p_cells m))).
Definition NumberOfFaceVertices (m : plex) : Z :=
  uniform (-1) (map (count_vertices m) (seq (p_fStart m) (p_fEnd m - p_fStart m))).

(** TDyL1norm(&x[v*dim], &X[p*dim]) and TDyADotBMinusC(&N[f*dim], &X[f*dim], &X[c*dim])
    (tdycore.c:1535-1556). *)
Definition L1norm (m : plex) (x : list R) (v p : nat) : outcome R :=
  for_ (p_dim m) (fun i s => do y <- rd x (v * p_dim m + i); Ok (s + Rabs (y - p_X m p i))%R) 0%R.
Fixpoint dot (n : nat) (a b : nat -> R) : R := match n with O => 0%R | S n => (dot n a b + a n * b n)%R end.
Definition ADotBMinusC (m : plex) (f c : nat) : R := dot (p_dim m) (p_N m f) (fun k => p_X m f k - p_X m c k)%R.

(** CreateCellVertexMap, tdyfe.c:29-50: the first vertex of the closure that is near. *)
Fixpoint near_vertex (m : plex) (c v idx : nat) (pts : list nat) (a : list nat) : outcome (list nat) :=
  match pts with
  | [] => Ok a
  | p :: pts =>
      if is_vertex m p then
        do s <- L1norm m (p_image m c) v p;
        if Rlt_dec (/ 10 ^ 12) s then near_vertex m c v idx pts a else wr a idx p
      else near_vertex m c v idx pts a
  end.
Definition CreateCellVertexMap (m : plex) (nv : nat) : outcome (list nat) :=
  for_ (p_cells m) (fun c a => for_ nv (fun v a => near_vertex m c v (c * nv + v) (p_closure m c) a) a)
    (repeat 0 (nv * p_cells m)).

(** local_dirs, tdyfe.c:87-101; for other dimensions the array is not initialised. *)
Definition local_dirs (dim : nat) : list nat :=
  match dim with
  | 2 => [2; 1;  3; 0;  0; 3;  1; 2]
  | 3 => [6; 5; 3;  7; 4; 2;  4; 7; 1;  5; 6; 0;  2; 1; 7;  3; 0; 6;  0; 3; 5;  1; 2; 4]
  | _ => []
  end.
Fixpoint each {X St : Type} (l : list X) (body : X -> St -> outcome St) (s : St) : outcome St :=
  match l with [] => Ok s | x :: l => do s <- body x s; each l body s end.
(** Lines 120-130: the loop over the directions, left at an inward normal. *)
Fixpoint directions (m : plex) (nv c q p w : nat) (vmap : list nat) (ds : list nat) (a : list Z) : outcome (list Z) :=
  match ds with
  | [] => Ok a
  | d :: ds =>
      do l <- rd (local_dirs (p_dim m)) (q * p_dim m + d);
      do u <- rd vmap (c * nv + l);
      if w =? u then
        if Rlt_dec (ADotBMinusC m p c) 0 then wr a (c * nv * p_dim m + q * p_dim m + d) (- Z.of_nat p)%Z
        else do a <- wr a (c * nv * p_dim m + q * p_dim m + d) (Z.of_nat p); directions m nv c q p w vmap ds a
      else directions m nv c q p w vmap ds a
  end.
Definition face_entries (m : plex) (nv c q p : nat) (vmap : list nat) (a : list Z) : outcome (list Z) :=
  each (p_closure m p) (fun f a =>
    do u <- rd vmap (c * nv + q);
    if f =? u then each (p_closure m p) (fun w a => directions m nv c q p w vmap (seq 0 (p_dim m)) a) a
    else Ok a) a.
(** CreateCellVertexDirFaceMap, tdyfe.c:102-138. *)
Definition CreateCellVertexDirFaceMap (m : plex) (nv : nat) (vmap : list nat) : outcome (list Z) :=
  for_ (p_cells m) (fun c a => for_ nv (fun q a =>
    each (p_closure m c) (fun p a => if is_face m p then face_entries m nv c q p vmap a else Ok a) a) a)
    (repeat 0%Z (p_dim m * nv * p_cells m)).

(** The vertices of every face, tdybdm.c:190-213 (and tdywy.c:405-425). *)
Definition CreateFaceVertexMap (m : plex) (nfv : nat) : outcome (list nat) :=
  for_ (p_fEnd m - p_fStart m) (fun k a =>
    do r <- each (filter (is_vertex m) (p_closure m (p_fStart m + k)))
              (fun p (s : nat * list nat) => do a <- wr (snd s) (nfv * k + fst s) p; Ok (S (fst s), a)) (0, a);
    Ok (snd r)) (repeat 0 (nfv * (p_fEnd m - p_fStart m))).

(** The numbers of the unknowns, tdybdm.c:215-243.  [start p] is the first output of
    DMPlexGetPointGlobal: the first unknown of point p, or minus that minus one where
    another process owns the point. *)
Definition owned_start (s : Z) : Z := if (s <? 0)%Z then (- (s + 1))%Z else s.
Definition PetscSign (z : Z) : Z := if (z <? 0)%Z then (-1)%Z else if (0 <? z)%Z then 1%Z else 0%Z.
Definition BDMUnknown (m : plex) (start : nat -> Z) (nv nfv : nat) (vmap : list nat) (emap : list Z) (fmap : list nat)
    (c v d : nat) (s : list Z * list Z) : outcome (list Z * list Z) :=
  let nlocal := p_dim m * nv + 1 in
  do f <- rd emap (c * nv * p_dim m + v * p_dim m + d);
  let g := Z.to_nat (Z.abs f) in
  if g <? p_fStart m then UB else
  do r <- for_ nfv (fun i (r : bool * (list Z * list Z)) =>
            do a <- rd vmap (nv * c + v);
            do b <- rd fmap (nfv * (g - p_fStart m) + i);
            if a =? b then
              do L <- wr (fst (snd r)) (c * nlocal + v * p_dim m + d) (owned_start (start g) + Z.of_nat i)%Z;
              do W <- wr (snd (snd r)) (c * nlocal + v * p_dim m + d) (PetscSign f);
              Ok (true, (L, W))
            else Ok r) (false, s);
  if fst r then Ok (snd r) else Err.
Definition BDMNumbering (m : plex) (start : nat -> Z) (nv nfv : nat) (vmap : list nat) (emap : list Z) (fmap : list nat) : outcome (list Z * list Z) :=
  let nlocal := p_dim m * nv + 1 in
  for_ (p_cells m) (fun c s =>
    do L <- wr (fst s) ((c + 1) * nlocal - 1) (owned_start (start c));
    for_ nv (fun v s => for_ (p_dim m) (fun d s => BDMUnknown m start nv nfv vmap emap fmap c v d s) s) (L, snd s))
    (repeat 0%Z (p_cells m * nlocal), repeat 0%Z (p_cells m * nlocal)).
(** The steps of the setup one after the other (tdybdm.c:182-243); a count of -1 or an
    error code is taken as it is. *)
Definition BDMMaps (m : plex) (start : nat -> Z) : outcome (list nat * list Z * (list Z * list Z)) :=
  let nv := Z.to_nat (NumberOfCellVertices m) in
  do vmap <- CreateCellVertexMap m nv;
  do emap <- CreateCellVertexDirFaceMap m nv vmap;
  let nfv := Z.to_nat (NumberOfFaceVertices m) in
  do fmap <- CreateFaceVertexMap m nfv;
  do u <- BDMNumbering m start nv nfv vmap emap fmap;
  Ok (vmap, emap, u).
