(** Model of the velocity error that the velocity recovery of the multi-point flux
    scheme accumulates and prints: the parts of TDyMPFAORecoverVelocity and its three
    callees, src/fv/mpfao/tdympfao_utils.c:103-687, that Velocity.v leaves out.

    The sub-cell that lines 182-183, 363-364, 402-403, 455-456 and 491-492 look up only
    serves to find the centroid and the area of the sub-face; both are functions of the
    vertex and the row here (at corners: of the vertex and the number of the sub-face).
    vel_count is still left out. *)
From Coq Require Import Reals ZArith List Bool Arith.
From Verif Require Import Prelude Arrays Mpfao MpfaoTs Transmit Velocity.
Import ListNotations.
Local Open Scope R_scope.

Definition vec3 := (R * R * R)%type.
(** TDyADotB, src/tdycore.c:1557-1563, for three dimensions. *)
Definition ADotB (a b : vec3) : R := let '(a0, a1, a2) := a in let '(b0, b1, b2) := b in a0 * b0 + a1 * b1 + a2 * b2.

(** The boundary velocity of the conditions, faces->normal, and for each vertex and
    row the centroid and the area of the sub-face. *)
Record probe := mkProbe {
  b_velocity : option (vec3 -> vec3); b_normal : list vec3; b_centroid : nat -> nat -> vec3; b_sub : nat -> nat -> R
}.
(** mpfao->vel, vel_error and count. *)
Definition estate := (list R * R * nat)%type.

(** Lines 196-206, 383-393, 422-432, 474-483, 511-520 and 638-647. *)
Definition record (b : probe) (iv r face_id : nat) (value : R) (s : estate) : outcome estate :=
  let '(vel, err, count) := s in
  do vel <- add_vel vel face_id value;
  match b_velocity b with
  | None => Ok (vel, err, count)
  | Some w =>
      do n <- rd (b_normal b) face_id;
      let vel_normal := ADotB (w (b_centroid b iv r)) n * b_sub b iv r in
      Ok (vel, err + (value - vel_normal) ^ 2, Datatypes.S count)
  end.

(** TDyMPFAORecoverVelocity_InternalVertices, lines 144-209. *)
Definition internal_row_e (p : recover) (b : probe) (u : list R) (iv : nat) (v : vert) (irow : nat) (s : estate) : outcome estate :=
  do face_id <- rd (x_faces v) irow;
  do f <- rd (faces (t_mesh (r_mesh p))) face_id;
  if negb (f_local f) then Ok s
  else
    do area <- rd (r_area p) face_id;
    do value <- cell_sum p u iv v irow area 0;
    record b iv irow face_id value s.
Definition InternalVertices_e (p : recover) (b : probe) (u : list R) (s : estate) : outcome estate :=
  for_ (length (verts (t_mesh (r_mesh p)))) (fun iv s =>
    do v <- rd (verts (t_mesh (r_mesh p))) iv;
    do e <- rd (t_extra (r_mesh p)) iv;
    if (e_nbnd e =? 0)%nat then for_ (length (x_faces v)) (internal_row_e p b u iv v) s else Ok s) s.

(** Lines 345-521. *)
Definition shared_row_e (p : recover) (b : probe) (u : list R) (iv : nat) (v : vert) (nb : nat) (pB : list R) (r : nat) (s : estate) : outcome estate :=
  do face_id <- rd (x_faces v) r;
  do f <- rd (faces (t_mesh (r_mesh p))) face_id;
  if negb (f_local f) then Ok s
  else
    do area <- rd (r_area p) face_id;
    do value <- cell_sum p u iv v r area 0;
    do value <- for_ nb (fun icol value =>
      do t <- rd3 (r_T p) iv r (icol + length (x_cells v));
      do pb <- rd pB icol;
      Ok (value + - t * pb / area)) value;
    record b iv r face_id value s.
Definition SharedVertices_e (p : recover) (b : probe) (u : list R) (s : estate) : outcome estate :=
  for_ (length (verts (t_mesh (r_mesh p)))) (fun iv s =>
    do v <- rd (verts (t_mesh (r_mesh p))) iv;
    do e <- rd (t_extra (r_mesh p)) iv;
    if (e_nbnd e =? 0)%nat || (length (x_cells v) <? 2)%nat || negb (x_local v) then Ok s
    else
      let nb := e_nbnd e in
      let nflux_in := (length (x_faces v) - nb)%nat in
      do pB <- pBoundary p u v e;
      do s <- for_ nflux_in (shared_row_e p b u iv v nb pB) s;
      for_ nb (fun irow => shared_row_e p b u iv v nb pB (irow + nflux_in)) s) s.

(** Lines 616-650. *)
Definition corner_face_e (p : recover) (b : probe) (iv : nat) (uc : R) (e : extra) (sc : subcell) (pB : list R) (iface : nat) (s : estate) : outcome estate :=
  do face_id <- rd (e_sfaces e) iface;
  do w <- rd (faces (t_mesh (r_mesh p))) iface;
  do f <- rd (faces (t_mesh (r_mesh p))) face_id;
  if negb (f_local f) then Ok s
  else
    do area <- rd (r_area p) face_id;
    do h <- rd (sfaces sc) iface;
    let sign := if (-1 <? f_up w)%Z then -1 else 1 in
    do value <- for_ 3 (fun j value => do pb <- rd pB j; Ok (value - sign * g_at h j * (pb - uc) / area)) 0;
    record b iv iface face_id (sign * value) s.
Definition corner_vertex_e (p : recover) (b : probe) (u : list R) (iv : nat) (v : vert) (e : extra) (s : estate) : outcome estate :=
  do icell <- rd (x_cells v) 0;
  do sc <- rd (e_sub e Pressure) 0;
  do uc <- rd u icell;
  do pB <- bnd_values p (fun c => rd u c) (map (fun f => (icell, f)) (sfaces sc));
  for_ 3 (corner_face_e p b iv uc e sc pB) s.
Definition CornerVertices_e (p : recover) (b : probe) (u : list R) (s : estate) : outcome estate :=
  for_ (length (verts (t_mesh (r_mesh p)))) (fun iv s =>
    do v <- rd (verts (t_mesh (r_mesh p))) iv;
    do e <- rd (t_extra (r_mesh p)) iv;
    if (e_nbnd e =? 0)%nat || (1 <? length (x_cells v))%nat then Ok s else corner_vertex_e p b u iv v e s) s.

(** TDyMPFAORecoverVelocity, lines 661-673, on one process. *)
Definition RecoverError (p : recover) (b : probe) (u : list R) : outcome estate :=
  let vel := repeat 0 (length (faces (t_mesh (r_mesh p)))) in
  do s <- InternalVertices_e p b u (vel, 0, O);
  do s <- CornerVertices_e p b u s;
  SharedVertices_e p b u s.
(** Lines 675-683: the sums over all processes and the printed number; [None] is the
    NaN that 0/0 gives. *)
Definition printed (l : list (R * nat)) : fl :=
  let vel_error_sum := fold_left (fun s x => s + fst x) l 0 in
  let count_sum := fold_left (fun s x => (s + snd x)%nat) l O in
  if (count_sum =? 0)%nat then None else Some (sqrt (vel_error_sum / INR count_sum)).
