(** Model of the Wheeler-Yotov (multipoint flux mixed finite element) method,
    src/fe/tdywy.c: the local matrices of the elements, the small system around every
    vertex, the stencil, the recovered velocities and the residual.

    Simplifications: the points of the mesh (DMPlex) are natural numbers, cells
    first; the closure of a vertex is the list of its points; the label "boundary"
    and the boundary pressure are one function [bc] (the pressure at the centre of a
    face that has label 1, if there is a pressure condition).  LAPACK's getrf, getri
    and getrs are represented by their contracts, as in Mpfao.v.  The buffers
    A[144] and B[144] (column-major, leading dimension nA) are matrices; a vertex
    with more rows or columns than fit overruns the buffers. *)
From Coq Require Import Reals List ZArith Bool Arith.
From Verif Require Import Prelude Arrays Mpfao.
Import ListNotations.
Local Open Scope R_scope.

(** ** Local matrices *)

(** BLASgemm("T","N"): alpha A^T B; A is k x m and B is k x n, column-major. *)
Definition gemm_tn (alpha : R) (m n k : nat) (A B : list R) : list R :=
  flat_map (fun j => map (fun i => alpha * acc (fun l => cm k A l i * cm k B l j) k) (seq 0 m)) (seq 0 n).
(** LAPACKgetrf and LAPACKgetri, if they report success. *)
Definition inverts (n : nat) (A X : list R) : Prop :=
  length X = (n * n)%nat
  /\ (forall i j, (i < n)%nat -> (j < n)%nat -> acc (fun k => cm n A i k * cm n X k j) n = if (i =? j)%nat then 1 else 0)
  /\ (forall i j, (i < n)%nat -> (j < n)%nat -> acc (fun k => cm n X i k * cm n A k j) n = if (i =? j)%nat then 1 else 0).
(** Pullback, lines 12-58; [X] is what it leaves in Kappa. *)
Definition kappa (n : nat) (K DFinv : list R) (J : R) : list R :=
  gemm_tn J n n n DFinv (gemm_tn 1 n n n K DFinv).
Definition Pullback (n : nat) (K DFinv : list R) (J : R) (X : list R) : Prop := inverts n (kappa n K DFinv J) X.

(** Lines 141-158. *)
Definition ElementSide (q d : nat) : R := if ((q / 2 ^ d) mod 2 =? 0)%nat then -1 else 1.
Definition KDotADotB (dim : nat) (K : list R) (A B : nat -> R) : R :=
  acc (fun i => acc (fun j => nth (j * dim + i) K 0 * A j) dim * B i) dim.
Definition axis (d : nat) (x : R) : nat -> R := fun k => if (k =? d)%nat then x else 0.

(** An element: its vertices (vmap), the signed face of every vertex and direction
    (emap), and Kinv at every vertex (lines 189-199). *)
Record element := mkElement { vmap : list nat; emap : list Z; kinv : nat -> list R }.

(** TDyWYLocalElementCompute, lines 180-211: row [j] and column [i] of the matrix of
    local vertex [q]. *)
Definition Alocal (dim : nat) (el : element) (q j i : nat) : R :=
  let Ehat := 2 ^ dim in
  let wgt := (/ 2) ^ dim in
  let ehat := Ehat / 2 in
  KDotADotB dim (kinv el q) (axis i (ElementSide q i)) (axis j (ElementSide q j)) * Ehat / ehat / ehat * wgt.
(** Lines 186, 214-217: forcing at the vertices times J. *)
Definition Flocal (forcing : option (nat -> R)) (J : nat -> R) (nq : nat) : R :=
  match forcing with Some f => acc (fun q => f q * J q) nq | None => 0 end.

(** ** The system around a vertex *)

Record mesh := mkMesh {
  dim : nat; elements : list element;   (* cStart = 0 *)
  fStart : nat; fEnd : nat;
  V : list R;                           (* volume or area of every point *)
  bc : nat -> option R
}.
Definition max_local_size : nat := 144.

Fixpoint index_of (x : nat) (l : list nat) : option nat :=
  match l with
  | [] => None
  | y :: l => if (y =? x)%nat then Some O else match index_of x l with Some i => Some (S i) | None => None end
  end.
Definition found {A} (o : option A) : outcome A := match o with Some x => Ok x | None => Err end.
Fixpoint iter {X St : Type} (l : list X) (body : X -> St -> outcome St) (s : St) : outcome St :=
  match l with [] => Ok s | x :: l => do s <- body x s; iter l body s end.

(** Lines 694-697, 868-870. *)
Definition faces_of (m : mesh) (star : list nat) : list nat := filter (fun p => (fStart m <=? p)%nat && (p <? fEnd m)%nat) star.
Definition cells_of (m : mesh) (star : list nat) : list nat := filter (fun p => (p <? length (elements m))%nat) star.

(** PetscSign and PetscAbsInt of an entry of emap. *)
Definition sign (z : Z) : R := if (0 <=? z)%Z then (if (z =? 0)%Z then 0 else 1) else -1.
Definition face (z : Z) : nat := Z.to_nat (Z.abs z).

(** [A[local_col*nA+local_row] += x]. *)
Definition add (M : mat) (i j : nat) (x : R) : outcome mat := put M i j (m_el M i j + x).
Definition add_at (a : list R) (i : nat) (x : R) : outcome (list R) := do y <- rd a i; wr a i (y + x).

(** Lines 761-784, 925-948. *)
Definition columns (m : mesh) (amap : list nat) (el : element) (q r : nat) (sr vr : R) (lr : nat) (A : mat) : outcome mat :=
  for_ (dim m) (fun c A =>
    do z <- rd (emap el) (q * dim m + c);
    do lc <- found (index_of (face z) amap);
    do vc <- rd (V m) (face z);
    add A lr lc (Alocal (dim m) el q r c * sr * sign z * vr * vc)) A.

(** TDyWYComputeSystem, lines 710-786: A, B and G; the weight is 1/2^(dim-1). *)
Record system := mkSystem { sA : mat; sB : mat; sG : list R }.
Definition weight (m : mesh) : R := (/ 2) ^ (dim m - 1).
Definition system_row (m : mesh) (amap bmap : list nat) (c : nat) (el : element) (q r : nat) (s : system) : outcome system :=
  do z <- rd (emap el) (q * dim m + r);
  do lr <- found (index_of (face z) amap);
  do lc <- found (index_of c bmap);
  do vr <- rd (V m) (face z);
  do B <- add (sB s) lr lc (weight m * sign z * vr);
  do G <- (match bc m (face z) with Some p => wr (sG s) lr (weight m * sign z * p * vr) | None => Ok (sG s) end);
  do A <- columns m amap el q r (sign z) vr lr (sA s);
  Ok (mkSystem A B G).
Definition system_cell (m : mesh) (amap bmap : list nat) (v c : nat) (s : system) : outcome system :=
  do el <- rd (elements m) c;
  do q <- found (index_of v (vmap el));
  for_ (dim m) (fun r s => system_row m amap bmap c el q r s) s.
Definition fits (nA nB : nat) : bool := ((nA * nA <=? max_local_size) && (nA * nB <=? max_local_size) && (nB * nB <=? max_local_size))%nat.
Definition vertex_system (m : mesh) (star : list nat) (v : nat) : outcome system :=
  let amap := faces_of m star in
  let bmap := cells_of m star in
  let nA := length amap in let nB := length bmap in
  if fits nA nB then
    iter bmap (fun c s => system_cell m amap bmap v c s) (mkSystem (alloc nA nA) (alloc nA nB) (repeat 0 nA))
  else UB.

(** FormStencil, lines 60-108: [X] and [Y] are A^-1 B and A^-1 G; C and D the result. *)
Definition solves_with (n : nat) (A : mat) (b x : nat -> R) : Prop :=
  forall i, (i < n)%nat -> acc (fun k => m_el A i k * x k) n = b i.
Definition FormStencil (nA nB : nat) (s : system) (X : nat -> nat -> R) (Y : nat -> R) (C : nat -> nat -> R) (D : nat -> R) : Prop :=
  (forall j, (j < nB)%nat -> solves_with nA (sA s) (fun i => m_el (sB s) i j) (fun k => X k j))
  /\ solves_with nA (sA s) (fun i => nth i (sG s) 0) Y
  /\ (forall i j, C i j = acc (fun k => m_el (sB s) k i * X k j) nA)
  /\ (forall i, D i = acc (fun k => m_el (sB s) k i * Y k) nA).

(** TDyWYRecoverVelocity, lines 874-950: A and F = B P - G. *)
Definition velocity_row (m : mesh) (amap : list nat) (p : R) (el : element) (q r : nat) (s : mat * list R) : outcome (mat * list R) :=
  do z <- rd (emap el) (q * dim m + r);
  do lr <- found (index_of (face z) amap);
  do vr <- rd (V m) (face z);
  do F <- add_at (snd s) lr (weight m * sign z * p * vr);
  do F <- (match bc m (face z) with Some g => add_at F lr (- weight m * sign z * g * vr) | None => Ok F end);
  do A <- columns m amap el q r (sign z) vr lr (fst s);
  Ok (A, F).
Definition velocity_cell (m : mesh) (amap : list nat) (P : list R) (v c : nat) (s : mat * list R) : outcome (mat * list R) :=
  do el <- rd (elements m) c;
  do q <- found (index_of v (vmap el));
  do p <- rd P c;
  for_ (dim m) (fun r s => velocity_row m amap p el q r s) s.
Definition velocity_system (m : mesh) (P : list R) (star : list nat) (v : nat) : outcome (mat * list R) :=
  let amap := faces_of m star in
  let nA := length amap in
  if fits nA (length (cells_of m star)) then
    iter (cells_of m star) (fun c s => velocity_cell m amap P v c s) (alloc nA nA, repeat 0 nA)
  else UB.

(** ** The residual *)

(** What TDyWYResidual reads of the mesh: for every point its volume or area V, the
    components of its centroid X and of its unit normal N; the cone (faces) of a
    cell; the velocities at the vertices of the faces; and of every cell the
    porosity, dS_dP and Flocal. *)
Record geometry := mkGeometry { g_V : list R; g_X : nat -> nat -> R; g_N : nat -> nat -> R }.
Record cell_data := mkCell { c_cone : list nat; c_porosity : R; c_dS_dP : R; c_force : R }.
Definition PetscSign (x : R) : R := if Rle_dec 0 x then (if Req_EM_T x 0 then 0 else 1) else -1.
(** TDyADotBMinusC(N of f, X of f, X of c). *)
Definition outward (n : nat) (g : geometry) (c f : nat) : R :=
  PetscSign (acc (fun k => g_N g f k * (g_X g f k - g_X g c k)) n).
(** Lines 1044-1062; the velocities of face f are vel[nv*(f-fStart)], ... *)
Definition face_sum (n : nat) (g : geometry) (first nfv : nat) (vel : list R) (c : nat) (f : nat) (div : R) : outcome R :=
  if (f <? first)%nat then UB else
  for_ nfv (fun j div =>
    do u <- rd vel (nfv * (f - first) + j);
    do a <- rd (g_V g) f;
    Ok (div + outward n g c f * u * (1 / INR nfv) * a)) div.
Definition divergence (n : nat) (g : geometry) (first nfv : nat) (vel : list R) (c : nat) (cone : list nat) : outcome R :=
  iter cone (face_sum n g first nfv vel c) 0.
(** Line 1065. *)
Definition residual (n : nat) (g : geometry) (first nfv : nat) (vel : list R) (cells : list cell_data) (dp_dt : list R) (c : nat) : outcome R :=
  do x <- rd cells c;
  do div <- divergence n g first nfv vel c (c_cone x);
  do d <- rd dp_dt c;
  Ok (c_porosity x * c_dS_dP x * d + div - c_force x).
