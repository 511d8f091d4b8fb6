(** Model of the system of the mixed finite element method BDM,
    src/fe/tdybdm.c:282-552: TDyKDotADotB, Inverse, IntegratePressureBoundary and
    TDyBDMComputeSystem.

    Simplifications: DMPlexComputeCellGeometryFEM is a function of the reference point
    that yields the image of the point, the Jacobian matrix and its determinant (for
    faces the surface element); the permeability (array K) is a list with one matrix per
    cell.  LAPACK's getrf and getri yield the inverse of an invertible matrix; of a
    singular one they leave factors [b_lu] behind.  Quadrature points and weights are
    the exact ones.  Cells with J = 0 at a quadrature point, for which the basis is not a
    number, end with [Err].  The matrix and the vector are functions of the global
    numbers; assembly adds up. *)
From Coq Require Import Reals List ZArith Bool Arith.
From Verif Require Import Prelude Arrays Hdiv FeMap.
Import ListNotations.
Local Open Scope R_scope.

Record problem := mkProblem {
  b_mesh : plex; b_ncv : nat; b_emap : list Z; b_LtoG : list Z; b_orient : list Z;   (* set up as in FeMap.v *)
  b_start : nat -> Z;                           (* DMPlexGetPointGlobal; negative: not owned *)
  b_cone : nat -> list nat; b_marker : nat -> Z;
  b_geometry : nat -> list R -> list R * list R * R;
  b_surface : nat -> list R -> R;
  b_lumped : bool;
  b_forcing : option (list R -> R); b_pressure : option (list R -> R);
  b_lu : list R -> list R
}.
Definition MAX_LOCAL_SIZE : nat := 625.

(** PetscDTGaussTensorQuadrature with three points in every direction: points and weights. *)
Definition gauss : list (R * R) := [(- sqrt (3 / 5), 5 / 9); (0, 8 / 9); (sqrt (3 / 5), 5 / 9)].
Fixpoint gauss_tensor (dim : nat) : list (list R * R) :=
  match dim with
  | O => [([], 1)]
  | S dim => flat_map (fun p => map (fun q => (fst p ++ [fst q], snd p * snd q)) gauss) (gauss_tensor dim)
  end.
(** SetQuadrature (Hdiv.v). *)
Definition corner_quadrature (dim : nat) : list (list R * R) :=
  map (fun q => (firstn dim (skipn (q * dim) (quadrature_points dim)), nth q (quadrature_weights dim) 0)) (seq 0 (2 ^ dim)).
(** Lines 446-459. *)
Definition quadrature (lumped : bool) (dim : nat) : list (list R * R) :=
  if lumped then corner_quadrature dim else gauss_tensor dim.

(** TDyKDotADotB, lines 282-295. *)
Definition KDotADotB (dim : nat) (K A B : list R) : outcome R :=
  for_ dim (fun i outer =>
    do inner <- for_ dim (fun j inner => do k <- rd K (j * dim + i); do a <- rd A j; Ok (inner + k * a)) 0;
    do b <- rd B i; Ok (outer + inner * b)) 0.
(** TDyADotB, tdycore.c:1558-1563. *)
Definition ADotB (dim : nat) (A B : list R) : outcome R :=
  for_ dim (fun i s => do a <- rd A i; do b <- rd B i; Ok (s + a * b)) 0.

(** Inverse, lines 297-321, without its error code, which the caller drops. *)
Definition ent (dim : nat) (K : list R) (i j : nat) : R := nth (i * dim + j) K 0.
Definition determinant (dim : nat) (K : list R) : R :=
  if (dim =? 2)%nat then ent 2 K 0 0 * ent 2 K 1 1 - ent 2 K 0 1 * ent 2 K 1 0
  else ent 3 K 0 0 * (ent 3 K 1 1 * ent 3 K 2 2 - ent 3 K 1 2 * ent 3 K 2 1)
     - ent 3 K 0 1 * (ent 3 K 1 0 * ent 3 K 2 2 - ent 3 K 1 2 * ent 3 K 2 0)
     + ent 3 K 0 2 * (ent 3 K 1 0 * ent 3 K 2 1 - ent 3 K 1 1 * ent 3 K 2 0).
Definition adjugate (dim : nat) (K : list R) : list R :=
  if (dim =? 2)%nat then [ent 2 K 1 1; - ent 2 K 0 1; - ent 2 K 1 0; ent 2 K 0 0]
  else let m a b c d := ent 3 K a b * ent 3 K c d - ent 3 K a d * ent 3 K c b in
       [m 1 1 2 2; - m 0 1 2 2; m 0 1 1 2; - m 1 0 2 2; m 0 0 2 2; - m 0 0 1 2; m 1 0 2 1; - m 0 0 2 1; m 0 0 1 1]%nat.
Definition Inverse (dim : nat) (lu : list R -> list R) (K : list R) : list R :=
  if Req_EM_T (determinant dim K) 0 then lu K else map (fun x => x / determinant dim K) (adjugate dim K).

(** Lines 401-405 and 479-483. *)
Fixpoint numbers (l : list fl) : outcome (list R) :=
  match l with
  | [] => Ok []
  | Some x :: l => do l <- numbers l; Ok (x :: l)
  | None :: _ => Err
  end.
Definition basis_at (dim : nat) (x DF : list R) (J : R) : outcome (list R) :=
  do B <- (if (dim =? 2)%nat then HdivBasisQuad x DF J else HdivBasisHex x DF J); numbers B.

(** [a[i] += x]. *)
Definition add_at (a : list R) (i : nat) (x : R) : outcome (list R) := do y <- rd a i; wr a i (y + x).
Fixpoint each {X St : Type} (l : list X) (body : X -> St -> outcome St) (s : St) : outcome St :=
  match l with [] => Ok s | x :: l => do s <- body x s; each l body s end.

(** ** IntegratePressureBoundary, lines 328-415 *)

Definition lside (dim : nat) : list nat :=
  if (dim =? 2)%nat then [0;0; 1;0; 0;1; 1;1]%nat
  else [0;0;0; 1;0;0; 0;1;0; 1;1;0; 0;0;1; 1;0;1; 0;1;1; 1;1;1]%nat.
(** Lines 359-368: the last local face that is [f], as direction and side. *)
Definition face_place (b : problem) (c f : nat) : outcome (option (nat * nat)) :=
  let dim := p_dim (b_mesh b) in let ncv := b_ncv b in
  for_ ncv (fun v s => for_ dim (fun d s =>
    do z <- rd (b_emap b) (c * ncv * dim + v * dim + d);
    if (Z.abs z =? Z.of_nat f)%Z then do x <- rd (lside dim) (v * dim + d); Ok (Some (d, x)) else Ok s) s) None.
(** Lines 362, 369-371. *)
Definition boundary_normal (b : problem) (c f : nat) : list R :=
  let m := b_mesh b in
  map (fun d => if Rlt_dec (ADotBMinusC m f c) 0 then p_N m f d * -1 else p_N m f d) (seq 0 (p_dim m)).
(** Lines 387-396. *)
Fixpoint extend (dim i dir : nat) (s : R) (y : list R) : outcome (list R) :=
  match dim with
  | O => Ok []
  | S dim => if (i =? dir)%nat then do x <- extend dim (S i) dir s y; Ok (s :: x)
             else match y with
                  | [] => UB
                  | a :: y => do x <- extend dim (S i) dir s y; Ok (a :: x)
                  end
  end.
Definition IntegratePressureBoundary (b : problem) (g : list R -> R) (c f : nat) (F : list R) : outcome (list R) :=
  let dim := p_dim (b_mesh b) in
  do place <- face_place b c f;
  match place with
  | None => UB
  | Some (dir, face_side) =>
      each (gauss_tensor (dim - 1)) (fun q F =>
        do point <- extend dim 0 dir ((-1) ^ (face_side + 1)) (fst q);
        let '(x, DF, J) := b_geometry b c point in
        do B <- basis_at dim point DF J;
        for_ (b_ncv b * dim) (fun i F =>
          do y <- ADotB dim (skipn (i * dim) B) (boundary_normal b c f);
          add_at F i (- (g x * y * snd q * b_surface b f (fst q)))) F) F
  end.

(** ** TDyBDMComputeSystem, lines 422-552 *)

Definition nlocal (b : problem) : nat := p_dim (b_mesh b) * b_ncv b + 1.
(** Lines 485-502. *)
Definition add_products (b : problem) (K B : list R) (w J : R) (M : list R) : outcome (list R) :=
  let dim := p_dim (b_mesh b) in let nv := b_ncv b in
  for_ nv (fun vi M => for_ nv (fun vj M => for_ dim (fun di M => for_ dim (fun dj M =>
    let row := (vi * dim + di)%nat in let col := (vj * dim + dj)%nat in
    do x <- KDotADotB dim K (skipn (dim * row) B) (skipn (dim * col) B);
    add_at M (col * nlocal b + row) (x * w * J)) M) M) M) M.
(** Lines 476-510. *)
Definition add_point (b : problem) (K : list R) (c : nat) (q : list R * R) (s : list R * list R) : outcome (list R * list R) :=
  let dim := p_dim (b_mesh b) in
  let '(x, DF, J) := b_geometry b c (fst q) in
  do B <- basis_at dim (fst q) DF J;
  do M <- add_products b K B (snd q) J (fst s);
  do F <- (match b_forcing b with
           | Some force => add_at (snd s) (nlocal b - 1) (- force x * snd q * J)
           | None => Ok (snd s)
           end);
  Ok (M, F).
(** Lines 514-523. *)
Definition add_boundary (b : problem) (c : nat) (F : list R) : outcome (list R) :=
  each (b_cone b c) (fun f F =>
    match b_pressure b with
    | Some g => if (b_marker b f =? 1)%Z then IntegratePressureBoundary b g c f F else Ok F
    | None => Ok F
    end) F.
(** Lines 525-533. *)
Definition flip (n : nat) (orient : list Z) (s : list R * list R) : outcome (list R * list R) :=
  for_ (n - 1) (fun vi s =>
    do o <- rd orient vi;
    do y <- rd (snd s) vi;
    do F <- wr (snd s) vi (y * IZR o);
    do M <- for_ (n - 1) (fun vj M =>
              do o' <- rd orient vj;
              do y <- rd M (vj * n + vi);
              wr M (vj * n + vi) (y * IZR (o * o'))) (fst s);
    do M <- wr M ((n - 1) * n + vi) (- IZR o);
    do M <- wr M (vi * n + n - 1) (- IZR o);
    Ok (M, F)) s.
Definition local_system (b : problem) (K : list R) (c : nat) : outcome (list R * list R) :=
  let dim := p_dim (b_mesh b) in
  do s <- each (quadrature (b_lumped b) dim) (add_point b K c) (repeat 0 MAX_LOCAL_SIZE, repeat 0 MAX_LOCAL_SIZE);
  do F <- add_boundary b c (snd s);
  flip (nlocal b) (skipn (c * nlocal b) (b_orient b)) (fst s, F).

(** MatSetValues and VecSetValues with ADD_VALUES, lines 538-540. *)
Definition add_value (A : Z -> Z -> R) (r s : Z) (x : R) : Z -> Z -> R :=
  fun i j => if (i =? r)%Z && (j =? s)%Z then A i j + x else A i j.
Definition add_entry (F : Z -> R) (r : Z) (x : R) : Z -> R := fun i => if (i =? r)%Z then F i + x else F i.
Definition assemble (n : nat) (LtoG : list Z) (s : list R * list R) (A : Z -> Z -> R) (F : Z -> R) : outcome ((Z -> Z -> R) * (Z -> R)) :=
  do A <- for_ n (fun i A => for_ n (fun j A =>
            do r <- rd LtoG i; do k <- rd LtoG j; do x <- rd (fst s) (i * n + j); Ok (add_value A r k x)) A) A;
  do F <- for_ n (fun i F => do r <- rd LtoG i; do x <- rd (snd s) i; Ok (add_entry F r x)) F;
  Ok (A, F).
(** The loop over the cells; the permeability is inverted in place (line 473). *)
Record state := mkState { s_K : list (list R); s_A : Z -> Z -> R; s_F : Z -> R }.
Definition compute_cell (b : problem) (c : nat) (s : state) : outcome state :=
  if (b_start b c <? 0)%Z then Ok s else
  do K <- rd (s_K s) c;
  let K := Inverse (p_dim (b_mesh b)) (b_lu b) K in
  do l <- local_system b K c;
  do AF <- assemble (nlocal b) (skipn (c * nlocal b) (b_LtoG b)) l (s_A s) (s_F s);
  Ok (mkState (upd (s_K s) c K) (fst AF) (snd AF)).
Definition ComputeSystem (b : problem) (s : state) : outcome state :=
  for_ (p_cells (b_mesh b)) (compute_cell b) s.
