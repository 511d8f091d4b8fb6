(** Model of the recovery of face velocities in the multi-point flux scheme:
    TDyMPFAORecoverVelocity and its three parts, src/fv/mpfao/tdympfao_utils.c:103-687.

    Only mpfao->vel is modelled: vel_count is never reset nor used, and vel_error is
    printed and forgotten.  The areas of faces are taken to be non-zero in the
    theorems.  As in Steady.v the boundary pressure is a function of the boundary
    number of a face. *)
From Coq Require Import Reals ZArith List Bool Arith.
From Verif Require Import Prelude Arrays Mpfao MpfaoTs Transmit.
Import ListNotations.
Local Open Scope R_scope.

(** The mesh, mpfao->Trans, mpfao->nfv, faces->area, mpfao->rho, and for each cell the
    product of gravity and height (ComputeGtimesZ, lines 11-21). *)
Record recover := mkRecover {
  r_mesh : tmesh; r_T : Trans; r_nfv : nat; r_area : list R; r_rho : list R; r_gz : list R;
  r_pressure : option (nat -> R)
}.
(** Lines 159-162: [u[cell_id] + mpfao->rho[cell_id]*gz]. *)
Definition Pcomputed (p : recover) (u : list R) (c : nat) : outcome R :=
  do x <- rd u c; do d <- rd (r_rho p) c; do g <- rd (r_gz p) c; Ok (x + d * g).
(** [mpfao->vel[face_id] += value]. *)
Definition add_vel (vel : list R) (a : nat) (x : R) : outcome (list R) := do y <- rd vel a; wr vel a (y + x).

(** The sum over the cells, lines 190-194, 370-377, 409-416, 462-467 and 499-504 (the
    branches for the up and the down side are the same). *)
Definition cell_sum (p : recover) (u : list R) (iv : nat) (v : vert) (irow : nat) (area value : R) : outcome R :=
  for_ (length (x_cells v)) (fun icol value =>
    do c <- rd (x_cells v) icol;
    do P <- Pcomputed p u c;
    do t <- rd3 (r_T p) iv irow icol;
    Ok (value + - t * P / area)) value.
(** TDyMPFAORecoverVelocity_InternalVertices, lines 144-209. *)
Definition internal_row (p : recover) (u : list R) (iv : nat) (v : vert) (irow : nat) (vel : list R) : outcome (list R) :=
  do face_id <- rd (x_faces v) irow;
  do f <- rd (faces (t_mesh (r_mesh p))) face_id;
  if negb (f_local f) then Ok vel
  else
    do area <- rd (r_area p) face_id;
    do value <- cell_sum p u iv v irow area 0;
    add_vel vel face_id value.
Definition InternalVertices (p : recover) (u vel : list R) : outcome (list R) :=
  for_ (length (verts (t_mesh (r_mesh p)))) (fun iv vel =>
    do v <- rd (verts (t_mesh (r_mesh p))) iv;
    do e <- rd (t_extra (r_mesh p)) iv;
    if (e_nbnd e =? 0)%nat then for_ (length (x_faces v)) (internal_row p u iv v) vel else Ok vel) vel.

(** Lines 303-342: the boundary values, for each cell and each boundary face of its
    sub-cell.  pBoundary is an automatic array of [nfv] entries. *)
Fixpoint bnd_values (p : recover) (other : nat -> outcome R) (l : list (nat * sface)) : outcome (list R) :=
  match l with
  | [] => Ok []
  | (c, f) :: l =>
      do x <- match r_pressure p with Some h => Ok (h (sf_bnd f)) | None => other c end;
      do xs <- bnd_values p other l;
      Ok (x :: xs)
  end.
Definition pBoundary (p : recover) (u : list R) (v : vert) (e : extra) : outcome (list R) :=
  do pB <- bnd_values p (Pcomputed p u)
    (flat_map (fun cs => map (fun f => (fst cs, f)) (filter (fun f => negb (sf_internal f)) (sfaces (snd cs)))) (combine (x_cells v) (e_sub e Pressure)));
  if (length pB <=? r_nfv p)%nat then Ok pB else UB.
(** Lines 345-435 and 438-521: a row of a vertex. *)
Definition shared_row (p : recover) (u : list R) (iv : nat) (v : vert) (nb : nat) (pB : list R) (r : nat) (vel : list R) : outcome (list R) :=
  do face_id <- rd (x_faces v) r;
  do f <- rd (faces (t_mesh (r_mesh p))) face_id;
  if negb (f_local f) then Ok vel
  else
    do area <- rd (r_area p) face_id;
    do value <- cell_sum p u iv v r area 0;
    do value <- for_ nb (fun icol value =>
      do t <- rd3 (r_T p) iv r (icol + length (x_cells v));
      do pb <- rd pB icol;
      Ok (value + - t * pb / area)) value;
    add_vel vel face_id value.
(** TDyMPFAORecoverVelocity_BoundaryVertices_SharedWithInternalVertices, lines 219-531. *)
Definition SharedVertices (p : recover) (u vel : list R) : outcome (list R) :=
  for_ (length (verts (t_mesh (r_mesh p)))) (fun iv vel =>
    do v <- rd (verts (t_mesh (r_mesh p))) iv;
    do e <- rd (t_extra (r_mesh p)) iv;
    if (e_nbnd e =? 0)%nat || (length (x_cells v) <? 2)%nat || negb (x_local v) then Ok vel
    else
      let nb := e_nbnd e in
      let nflux_in := (length (x_faces v) - nb)%nat in
      do pB <- pBoundary p u v e;
      do vel <- for_ nflux_in (shared_row p u iv v nb pB) vel;
      for_ nb (fun irow => shared_row p u iv v nb pB (irow + nflux_in)) vel) vel.

(** TDyMPFAORecoverVelocity_BoundaryVertices_NotSharedWithInternalVertices, lines
    534-658.  The cells of line 622 are those of face number [iface]. *)
Definition corner_face (p : recover) (uc : R) (e : extra) (s : subcell) (pB : list R) (iface : nat) (vel : list R) : outcome (list R) :=
  do face_id <- rd (e_sfaces e) iface;
  do w <- rd (faces (t_mesh (r_mesh p))) iface;
  do f <- rd (faces (t_mesh (r_mesh p))) face_id;
  if negb (f_local f) then Ok vel
  else
    do area <- rd (r_area p) face_id;
    do h <- rd (sfaces s) iface;
    let sign := if (-1 <? f_up w)%Z then -1 else 1 in
    do value <- for_ 3 (fun j value => do pb <- rd pB j; Ok (value - sign * g_at h j * (pb - uc) / area)) 0;
    add_vel vel face_id (sign * value).
Definition corner_vertex (p : recover) (u : list R) (v : vert) (e : extra) (vel : list R) : outcome (list R) :=
  do icell <- rd (x_cells v) 0;
  do s <- rd (e_sub e Pressure) 0;
  do uc <- rd u icell;
  do pB <- bnd_values p (fun c => rd u c) (map (fun f => (icell, f)) (sfaces s));
  for_ 3 (corner_face p uc e s pB) vel.
Definition CornerVertices (p : recover) (u vel : list R) : outcome (list R) :=
  for_ (length (verts (t_mesh (r_mesh p)))) (fun iv vel =>
    do v <- rd (verts (t_mesh (r_mesh p))) iv;
    do e <- rd (t_extra (r_mesh p)) iv;
    if (e_nbnd e =? 0)%nat || (1 <? length (x_cells v))%nat then Ok vel else corner_vertex p u v e vel) vel.

(** TDyMPFAORecoverVelocity, lines 660-687. *)
Definition RecoverVelocity (p : recover) (u : list R) : outcome (list R) :=
  let vel := repeat 0 (length (faces (t_mesh (r_mesh p)))) in
  do vel <- InternalVertices p u vel;
  do vel <- CornerVertices p u vel;
  SharedVertices p u vel.
