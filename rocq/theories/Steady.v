(** Model of the steady system of the multi-point flux scheme:
    src/fv/mpfao/tdympfao_steady.c and TDyMPFAOComputeSystem,
    src/fv/mpfao/tdympfao.c:2788-2830.

    The boundary pressure is a function of the boundary number of a face, the forcing
    of the number of a cell (the code evaluates both at the centroid).  A missing
    boundary function is a NULL pointer that is called. *)
From Coq Require Import Reals ZArith List Bool Arith.
From Verif Require Import Prelude Arrays Mpfao MpfaoTs Transmit.
From Verif Require Fvtpf.
Import ListNotations.
Local Open Scope R_scope.

(** The mesh, mpfao->Trans, cells->global_id, mpfao->nfv, and the conditions. *)
Record steady := mkSteady {
  s_mesh : tmesh; s_T : Trans; s_gid : list nat; s_nfv : nat;
  s_pressure : option (nat -> R); s_forcing : option (nat -> R)
}.
(** K and F: what was added to them (ADD_VALUES). *)
Definition additions : Type := list (nat * R).
Definition system : Type := (list entry * additions)%type.
Definition addK (s : system) (row col : nat) (x : R) : system := (fst s ++ [(row, col, x)], snd s).
Definition addF (s : system) (row : nat) (x : R) : system := (fst s, snd s ++ [(row, x)]).

Definition cell_of (p : steady) (z : Z) : outcome (bool * nat) :=
  do k <- Fvtpf.at_ (rocks (t_mesh (s_mesh p))) z;
  do g <- Fvtpf.at_ (s_gid p) z;
  Ok (k_local k, g).
(** [z > -1 && cells->is_local[z]]. *)
Definition cell_if (p : steady) (z : Z) : outcome (bool * nat) :=
  if (z <? 0)%Z then Ok (false, O) else cell_of p z.
Definition column_id (p : steady) (v : vert) (icol : nat) : outcome nat :=
  do c <- rd (x_cells v) icol; rd (s_gid p) c.

(** TDyMPFAOComputeSystem_InternalVertices, lines 38-74. *)
Definition internal_row (p : steady) (iv : nat) (v : vert) (irow : nat) (s : system) : outcome system :=
  do face_id <- rd (x_faces v) irow;
  do f <- rd (faces (t_mesh (s_mesh p))) face_id;
  for_ (length (x_cells v)) (fun icol s =>
    do col <- column_id p v icol;
    do t <- rd3 (s_T p) iv irow icol;
    let value := - t in
    do up <- cell_of p (f_up f);
    let s := if fst up then addK s (snd up) col value else s in
    do dn <- cell_of p (f_dn f);
    Ok (if fst dn then addK s (snd dn) col (- value) else s)) s.
Definition InternalVertices (p : steady) (s : system) : outcome system :=
  for_ (length (verts (t_mesh (s_mesh p)))) (fun iv s =>
    do v <- rd (verts (t_mesh (s_mesh p))) iv;
    do e <- rd (t_extra (s_mesh p)) iv;
    if (e_nbnd e =? 0)%nat then for_ (length (x_faces v)) (internal_row p iv v) s else Ok s) s.

(** Lines 170-197: pBoundary, an automatic array of [nfv] entries. *)
Definition boundary_pressures (p : steady) (l : list sface) : outcome (list R) :=
  match l, s_pressure p with
  | [], _ => Ok []
  | _, None => UB
  | _, Some h => if (length l <=? s_nfv p)%nat then Ok (map (fun f => h (sf_bnd f)) l) else UB
  end.
(** Lines 208-242 and 257-291: one face, from the side [u] ([sign] = 1: up). *)
Definition shared_side (p : steady) (iv : nat) (v : vert) (nb : nat) (pB : list R) (r : nat) (sign : R) (u : bool * nat) (s : system) : outcome system :=
  if negb (fst u) then Ok s
  else
    do s <- for_ (length (x_cells v)) (fun icol s =>
      do col <- column_id p v icol;
      do t <- rd3 (s_T p) iv r icol;
      Ok (addK s (snd u) col (sign * - t))) s;
    for_ nb (fun icol s =>
      do t <- rd3 (s_T p) iv r (icol + length (x_cells v));
      do pb <- rd pB icol;
      Ok (addF s (snd u) (- sign * (- t * pb)))) s.
(** TDyMPFAOComputeSystem_BoundaryVertices_SharedWithInternalVertices, lines 138-293. *)
Definition shared_vertex (p : steady) (iv : nat) (v : vert) (e : extra) (s : system) : outcome system :=
  let nb := e_nbnd e in
  let nflux_in := (length (x_faces v) - nb)%nat in
  do pB <- boundary_pressures p (boundary_faces (vertex_of v e Pressure));
  do s <- for_ nflux_in (fun irow s =>
    do face_id <- rd (x_faces v) irow;
    do f <- rd (faces (t_mesh (s_mesh p))) face_id;
    do up <- cell_of p (f_up f);
    do s <- shared_side p iv v nb pB irow 1 up s;
    do dn <- cell_of p (f_dn f);
    shared_side p iv v nb pB irow (-1) dn s) s;
  for_ nb (fun irow s =>
    do face_id <- rd (x_faces v) (irow + nflux_in);
    do f <- rd (faces (t_mesh (s_mesh p))) face_id;
    do up <- cell_if p (f_up f);
    do s <- shared_side p iv v nb pB (irow + nflux_in) 1 up s;
    do dn <- cell_if p (f_dn f);
    shared_side p iv v nb pB (irow + nflux_in) (-1) dn s) s.
Definition SharedVertices (p : steady) (s : system) : outcome system :=
  for_ (length (verts (t_mesh (s_mesh p)))) (fun iv s =>
    do v <- rd (verts (t_mesh (s_mesh p))) iv;
    do e <- rd (t_extra (s_mesh p)) iv;
    if (e_nbnd e =? 0)%nat || (length (x_cells v) <? 2)%nat || negb (x_local v) then Ok s
    else shared_vertex p iv v e s) s.

(** TDyMPFAOComputeSystem_BoundaryVertices_NotSharedWithInternalVertices, lines 337-424. *)
Definition corner_vertex (p : steady) (iv : nat) (v : vert) (e : extra) (s : system) : outcome system :=
  do icell <- rd (x_cells v) 0;
  do sub <- rd (e_sub e Pressure) 0;
  do pB <- boundary_pressures p (sfaces sub);
  do s <- for_ 3 (fun iface s =>
    do face_id <- rd (e_sfaces e) iface;
    do f <- rd (faces (t_mesh (s_mesh p))) face_id;
    let sign := if (-1 <? f_up f)%Z then -1 else 1 in
    do t0 <- rd3 (s_T p) iv iface 0;
    do t1 <- rd3 (s_T p) iv iface 1;
    do t2 <- rd3 (s_T p) iv iface 2;
    let value := 0 + sign * - t0 + sign * - t1 + sign * - t2 in
    do c <- cell_of p (Z.of_nat icell);
    Ok (if fst c then addK s (snd c) (snd c) (- value) else s)) s;
  for_ 3 (fun iface s =>
    do face_id <- rd (e_sfaces e) iface;
    do f <- rd (faces (t_mesh (s_mesh p))) face_id;
    do up <- cell_if p (f_up f);
    do s <- (if fst up then for_ (e_nbnd e) (fun icol s =>
        do t <- rd3 (s_T p) iv iface icol; do pb <- rd pB icol; Ok (addF s (snd up) (- t * pb))) s else Ok s);
    do dn <- cell_if p (f_dn f);
    if fst dn then for_ (e_nbnd e) (fun icol s =>
        do t <- rd3 (s_T p) iv iface icol; do pb <- rd pB icol; Ok (addF s (snd dn) (- (- t * pb)))) s else Ok s) s.
Definition CornerVertices (p : steady) (s : system) : outcome system :=
  for_ (length (verts (t_mesh (s_mesh p)))) (fun iv s =>
    do v <- rd (verts (t_mesh (s_mesh p))) iv;
    do e <- rd (t_extra (s_mesh p)) iv;
    if (e_nbnd e =? 0)%nat || (1 <? length (x_cells v))%nat then Ok s else corner_vertex p iv v e s) s.

(** TDyMPFAOComputeSystem, tdympfao.c:2788-2830: K is cleared, F is not. *)
Definition ComputeSystem (p : steady) (s : system) : outcome system :=
  let s : system := ([], snd s) in
  do s <- InternalVertices p s;
  do s <- SharedVertices p s;
  do s <- CornerVertices p s;
  match s_forcing p with
  | None => Ok s
  | Some f =>
      for_ (length (rocks (t_mesh (s_mesh p)))) (fun icell s =>
        do k <- rd (rocks (t_mesh (s_mesh p))) icell;
        if negb (k_local k) then Ok s
        else do row <- rd (s_gid p) icell; Ok (addF s row (f icell * k_vol k))) s
  end.
