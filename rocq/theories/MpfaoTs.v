(** Model of the residuals and the Jacobian of the multi-point flux scheme:
    src/fv/mpfao/tdympfao_ts.c, tdympfao_ts_dae.c, tdympfao_ts_transientvar.c and
    tdympfao_snes.c.

    As in Fvtpf.v the functions start from the local arrays: the state left by
    TDyUpdateState, the boundary arrays, the product TtimesP_vec and GravDisVec.
    The state holds finite numbers; divisions can produce non-finite results. *)
From Coq Require Import Reals ZArith List Bool Arith.
From Verif Require Import Prelude Arrays Mpfao.
From Verif Require Fvtpf.
Import ListNotations.
Local Open Scope R_scope.

(** The per-cell arrays of TDyMPFAO (include/private/tdympfaoimpl.h). *)
Record cell := mkCell {
  c_rho : R; c_drho : R; c_d2rho : R;   (* rho, drho_dP, d2rho_dP2 *)
  c_vis : R; c_dvis : R;                (* vis, dvis_dP *)
  c_S : R; c_dS : R; c_d2S : R;         (* S, dS_dP, d2S_dP2 *)
  c_Kr : R; c_dKr : R                   (* Kr, dKr_dS *)
}.
(** P_bnd, rho_bnd, vis_bnd, Kr_bnd. *)
Record bnd := mkBnd { b_P : R; b_rho : R; b_vis : R; b_Kr : R }.
(** porosity, cells->volume, source_sink, cells->is_local. *)
Record rock := mkRock { k_por : R; k_vol : R; k_src : R; k_local : bool }.
(** faces->cell_ids[0..1], faces->is_local. *)
Record face := mkFace { f_up : Z; f_dn : Z; f_local : bool }.
(** vertices->is_local, face_ids, subface_ids, internal_cell_ids. *)
Record vert := mkVert { x_local : bool; x_faces : list nat; x_subs : list nat; x_cells : list nat }.
Record mesh := mkMesh { faces : list face; rocks : list rock; verts : list vert; bc : bctype; Pref : R }.

(** What lies on one side of a face: a cell, or the boundary. *)
Definition side : Type := (cell + bnd)%type.
Definition side_at (cs : list cell) (bs : list bnd) (z : Z) : outcome side :=
  if (0 <=? z)%Z then do c <- Fvtpf.at_ cs z; Ok (inl c) else do b <- Fvtpf.at_ bs (- z - 1); Ok (inr b).
Definition rho (s : side) : R := match s with inl c => c_rho c | inr b => b_rho b end.
Definition vis (s : side) : R := match s with inl c => c_vis c | inr b => b_vis b end.
Definition Kr (s : side) : R := match s with inl c => c_Kr c | inr b => b_Kr b end.

(** [mpfao->bc_type == SEEPAGE_BC && mpfao->P_bnd[...] <= mpfao->Pref]. *)
Definition blocked (b : bctype) (Pref : R) (s : side) : bool :=
  match b, s with
  | SeepageBC, inr x => if Rle_dec (b_P x) Pref then true else false
  | _, _ => false
  end.

(** Lines 93-127: the flux of one sub-face, from the up to the down side. *)
Definition fluxm (b : bctype) (Pref : R) (up dn : side) (TP G : R) : fl :=
  let den_aveg := (0 + rho up + rho dn) * 0.5 in
  let s := if Rlt_dec (TP + den_aveg * G) 0 then up else dn in
  if blocked b Pref s then Some 0
  else flet ukvr := fdiv (Kr s) (vis s);
       Some (0 + (den_aveg * ukvr * (- TP)) + (- den_aveg ^ 2) * ukvr * G).

(** [i >= 0 && cells->is_local[i]]. *)
Definition valid_local (m : mesh) (z : Z) : outcome bool :=
  if (z <? 0)%Z then Ok false else do k <- Fvtpf.at_ (rocks m) z; Ok (k_local k).

(** TDyMPFAOIFunction_Vertices, tdympfao_ts.c:12-150: one row of one vertex.
    num_faces is the length of face_ids. *)
Definition vertex_row (m : mesh) (cs : list cell) (bs : list bnd) (TP GD : list R) (v : vert) (irow : nat) (r : list fl) : outcome (list fl) :=
  do face_id <- rd (x_faces v) irow;
  do subface_id <- rd (x_subs v) irow;
  do f <- rd (faces m) face_id;
  if negb (f_local f) then Ok r
  else
    do tp <- rd TP (face_id * 4 + subface_id);
    do up <- side_at cs bs (f_up f);
    do dn <- side_at cs bs (f_dn f);
    do G <- rd GD (face_id * 4 + subface_id);
    let q := fluxm (bc m) (Pref m) up dn tp G in
    do u <- valid_local m (f_up f);
    do r <- (if u then Fvtpf.add_at r (f_up f) q else Ok r);
    do d <- valid_local m (f_dn f);
    (if d then Fvtpf.sub_at r (f_dn f) q else Ok r).

Definition vertex_rows (m : mesh) (cs : list cell) (bs : list bnd) (TP GD : list R) (iv : nat) (r : list fl) : outcome (list fl) :=
  do v <- rd (verts m) iv;
  if negb (x_local v) then Ok r else for_ (length (x_faces v)) (vertex_row m cs bs TP GD v) r.

Definition IFunction_Vertices (m : mesh) (cs : list cell) (bs : list bnd) (TP GD : list R) (r : list fl) : outcome (list fl) :=
  for_ (length (verts m)) (vertex_rows m cs bs TP GD) r.

(** Lines 188-206 of TDyMPFAOIFunction (and 480-487 of the Jacobian):
    dmass_dP. *)
Definition dmass_dP (c : cell) (k : rock) : R :=
  c_rho c * 0 * c_S c + c_drho c * k_por k * c_S c + c_rho c * k_por k * c_dS c.

(** TDyMPFAOIFunction, lines 153-227. *)
Definition ts_cell (m : mesh) (cs : list cell) (dp_dt : list R) (icell : nat) (r : list fl) : outcome (list fl) :=
  do k <- rd (rocks m) icell;
  if negb (k_local k) then Ok r
  else
    do c <- rd cs icell;
    do d <- rd dp_dt icell;
    do r <- Fvtpf.add_at r (Z.of_nat icell) (Some (dmass_dP c k * d * k_vol k));
    Fvtpf.sub_at r (Z.of_nat icell) (Some (k_src k * k_vol k)).
Definition IFunction (m : mesh) (cs : list cell) (bs : list bnd) (TP GD dp_dt : list R) (n : nat) : outcome (list fl) :=
  do r <- IFunction_Vertices m cs bs TP GD (repeat (Some 0) n);
  for_ (length (rocks m)) (ts_cell m cs dp_dt) r.

(** TDyMPFAOTransientVariable, tdympfao_ts_transientvar.c:13-50. *)
Definition TransientVariable (c : cell) (k : rock) : R := c_rho c * k_por k * c_S c * k_vol k.

(** TDyMPFAOIFunction_TransientVariable, tdympfao_ts_transientvar.c:53-101. *)
Definition tv_cell (m : mesh) (dm_dt : list R) (icell : nat) (r : list fl) : outcome (list fl) :=
  do k <- rd (rocks m) icell;
  if negb (k_local k) then Ok r
  else
    do d <- rd dm_dt icell;
    do r <- Fvtpf.add_at r (Z.of_nat icell) (Some (d * k_vol k));
    Fvtpf.sub_at r (Z.of_nat icell) (Some (k_src k * k_vol k)).
Definition IFunction_TransientVariable (m : mesh) (cs : list cell) (bs : list bnd) (TP GD dm_dt : list R) (n : nat) : outcome (list fl) :=
  do r <- IFunction_Vertices m cs bs TP GD (repeat (Some 0) n);
  for_ (length (rocks m)) (tv_cell m dm_dt) r.

(** TDyMPFAOIFunction_DAE, tdympfao_ts_dae.c:13-82: [u_t] and the result hold two
    entries per cell, [ms] is the sub-vector of the masses.  The result vector is
    zeroed first; every local cell overwrites its two entries. *)
Definition dae_cell (m : mesh) (cs : list cell) (ms u_t : list R) (r_p : list fl) (icell : nat) (r : list fl) : outcome (list fl) :=
  do k <- rd (rocks m) icell;
  if negb (k_local k) then Ok r
  else
    do d <- rd u_t (icell * 2 + 1);
    do q <- rd r_p icell;
    do r <- wr r (icell * 2) (fl1 (fun q => d * k_vol k - k_src k * k_vol k + q) q);
    do M <- rd ms icell;
    do c <- rd cs icell;
    wr r (icell * 2 + 1) (Some (M - c_rho c * k_por k * c_S c * k_vol k)).
Definition IFunction_DAE (m : mesh) (cs : list cell) (bs : list bnd) (TP GD ms u_t : list R) (n : nat) : outcome (list fl) :=
  do r_p <- IFunction_Vertices m cs bs TP GD (repeat (Some 0) n);
  for_ (length (rocks m)) (dae_cell m cs ms u_t r_p) (repeat (Some 0) (n * 2)).

(** TDyMPFAOSNESAccumulation, tdympfao_snes.c:19-30. *)
Definition SNESAccumulation (dtime : R) (c : cell) (k : rock) : fl :=
  fdiv (c_rho c * k_por k * c_S c * k_vol k) dtime.

(** TDyMPFAOSNESFunction, tdympfao_snes.c:67-140. *)
Definition snes_cell (m : mesh) (cs : list cell) (dtime : R) (accum_prev : list fl) (icell : nat) (r : list fl) : outcome (list fl) :=
  do k <- rd (rocks m) icell;
  if negb (k_local k) then Ok r
  else
    do c <- rd cs icell;
    do prev <- rd accum_prev icell;
    do r <- Fvtpf.add_at r (Z.of_nat icell) (fl2 Rminus (SNESAccumulation dtime c k) prev);
    Fvtpf.sub_at r (Z.of_nat icell) (Some (k_src k)).
Definition SNESFunction (m : mesh) (cs : list cell) (bs : list bnd) (TP GD : list R) (dtime : R) (accum_prev : list fl) (n : nat) : outcome (list fl) :=
  do r <- IFunction_Vertices m cs bs TP GD (repeat (Some 0) n);
  for_ (length (rocks m)) (snes_cell m cs dtime accum_prev) r.

(** ** Jacobian *)

(** mpfao->Trans[vertex][row][column]. *)
Definition Trans : Type := list (list (list R)).
Definition rd3 (T : Trans) (i j k : nat) : outcome R :=
  do a <- rd T i; do b <- rd a j; rd b k.

Definition drho (s : side) : R := match s with inl c => c_drho c | inr _ => 0 end.
(** Lines 347-348 and 373-374. *)
Definition dukvr (s : side) : fl :=
  match s with
  | inl c => flet a := fdiv (c_dKr c * c_dS c) (c_vis c); flet b := fdiv (c_Kr c) (c_vis c * c_vis c); Some (a - b * c_dvis c)
  | inr _ => Some 0
  end.

(** Lines 303-432: the value added for column cell [cell_id] to the row of the up
    cell (its negative to the row of the down cell). *)
Definition jac_value (b : bctype) (Pref : R) (zup zdn : Z) (up dn : side) (tp G T : R) (cell_id : nat) : fl :=
  let den_aveg := 0 + 0.5 * rho up + 0.5 * rho dn in
  let dden_aveg_dPup := match up with inl c => 0.5 * c_drho c | inr _ => 0 end in
  let dden_aveg_dPdn := match dn with inl c => 0.5 * c_drho c | inr _ => 0 end in
  let upwind := if Rlt_dec (tp + den_aveg * G) 0 then true else false in
  let s := if upwind then up else dn in
  if blocked b Pref s then Some (- 0)
  else
    flet ukvr := fdiv (Kr s) (vis s);
    flet dukvr_dPup := (if upwind then dukvr up else Some 0);
    flet dukvr_dPdn := (if upwind then Some 0 else dukvr dn);
    Some (- (
      if (-1 <? zup)%Z && (Z.of_nat cell_id =? zup)%Z then
        dden_aveg_dPup * ukvr * tp + den_aveg * dukvr_dPup * tp + den_aveg * ukvr * T
        + 2 * den_aveg * dden_aveg_dPup * ukvr * G + den_aveg ^ 2 * dukvr_dPup * G
      else if (-1 <? zdn)%Z && (Z.of_nat cell_id =? zdn)%Z then
        dden_aveg_dPdn * ukvr * tp + den_aveg * dukvr_dPdn * tp + den_aveg * ukvr * T
        + 2 * den_aveg * dden_aveg_dPdn * ukvr * G + den_aveg ^ 2 * dukvr_dPdn * G
      else den_aveg * ukvr * T)).

(** Lines 396-440: one column.  A column index left at -1 is ignored by
    MatSetValuesLocal. *)
Definition jac_col (m : mesh) (f : face) (up dn : side) (tp G : R) (T : Trans) (iv irow icol : nat) (cell_id : nat) (B : Fvtpf.matrix) : outcome Fvtpf.matrix :=
  do t <- rd3 T iv irow icol;
  let J := jac_value (bc m) (Pref m) (f_up f) (f_dn f) up dn tp G t cell_id in
  do u <- valid_local m (f_up f);
  let B := if u then (f_up f, Z.of_nat cell_id, J) :: B else B in
  do d <- valid_local m (f_dn f);
  Ok (if d then (f_dn f, Z.of_nat cell_id, fl1 Ropp J) :: B else B).

(** TDyMPFAOIJacobian_Vertices, lines 235-456: one row of one vertex.
    [junk iv irow]: content of the automatic array TtimesP, which is not assigned
    for faces that are not local.  Vertices that are not local are not skipped. *)
Definition jac_row (m : mesh) (cs : list cell) (bs : list bnd) (TP GD : list R) (T : Trans) (junk : nat -> nat -> R)
    (iv : nat) (v : vert) (irow : nat) (B : Fvtpf.matrix) : outcome Fvtpf.matrix :=
  do face_id <- rd (x_faces v) irow;
  do subface_id <- rd (x_subs v) irow;
  do f <- rd (faces m) face_id;
  do tp <- (if f_local f then rd TP (face_id * 4 + subface_id) else Ok (junk iv irow));
  if (match bc m with NeumannBC => true | _ => false end) && ((f_up f <? 0)%Z || (f_dn f <? 0)%Z) then Ok B
  else
    do up <- side_at cs bs (f_up f);
    do dn <- side_at cs bs (f_dn f);
    do G <- rd GD (face_id * 4 + subface_id);
    for_ (length (x_cells v)) (fun icol B => do c <- rd (x_cells v) icol; jac_col m f up dn tp G T iv irow icol c B) B.
Definition jac_rows (m : mesh) (cs : list cell) (bs : list bnd) (TP GD : list R) (T : Trans) (junk : nat -> nat -> R)
    (iv : nat) (B : Fvtpf.matrix) : outcome Fvtpf.matrix :=
  do v <- rd (verts m) iv;
  for_ (length (x_faces v)) (jac_row m cs bs TP GD T junk iv v) B.
Definition IJacobian_Vertices (m : mesh) (cs : list cell) (bs : list bnd) (TP GD : list R) (T : Trans) (junk : nat -> nat -> R) (B : Fvtpf.matrix) : outcome Fvtpf.matrix :=
  for_ (length (verts m)) (jac_rows m cs bs TP GD T junk) B.

(** TDyMPFAOIJacobian_Accumulation, lines 459-517. *)
Definition d2mass_dP2 (c : cell) (k : rock) : R :=
  c_dS c * c_rho c * 0 + c_S c * c_drho c * 0 + c_S c * c_rho c * 0
  + c_dS c * c_drho c * k_por k + c_S c * c_d2rho c * k_por k + c_S c * c_drho c * 0
  + c_d2S c * c_rho c * k_por k + c_dS c * c_drho c * k_por k + c_dS c * c_rho c * 0.
Definition jac_acc (m : mesh) (cs : list cell) (shift : R) (dp_dt : list R) (icell : nat) (B : Fvtpf.matrix) : outcome Fvtpf.matrix :=
  do k <- rd (rocks m) icell;
  if negb (k_local k) then Ok B
  else
    do c <- rd cs icell;
    do d <- rd dp_dt icell;
    Ok ((Z.of_nat icell, Z.of_nat icell, Some ((shift * dmass_dP c k + d2mass_dP2 c k * d) * k_vol k)) :: B).

(** TDyMPFAOIJacobian, lines 520-570: MatZeroEntries, then both parts. *)
Definition IJacobian (m : mesh) (cs : list cell) (bs : list bnd) (TP GD : list R) (T : Trans) (junk : nat -> nat -> R)
    (shift : R) (dp_dt : list R) : outcome Fvtpf.matrix :=
  do B <- IJacobian_Vertices m cs bs TP GD T junk [];
  for_ (length (rocks m)) (jac_acc m cs shift dp_dt) B.

(** TDyMPFAOSNESJacobian, tdympfao_snes.c:143-203. *)
Definition jac_snes (m : mesh) (cs : list cell) (dtime : R) (icell : nat) (B : Fvtpf.matrix) : outcome Fvtpf.matrix :=
  do k <- rd (rocks m) icell;
  if negb (k_local k) then Ok B
  else
    do c <- rd cs icell;
    Ok ((Z.of_nat icell, Z.of_nat icell, fl1 (fun dtInv => dmass_dP c k * k_vol k * dtInv) (fdiv 1 dtime)) :: B).
Definition SNESJacobian (m : mesh) (cs : list cell) (bs : list bnd) (TP GD : list R) (T : Trans) (junk : nat -> nat -> R)
    (dtime : R) : outcome Fvtpf.matrix :=
  do B <- IJacobian_Vertices m cs bs TP GD T junk [];
  for_ (length (rocks m)) (jac_snes m cs dtime) B.

(** ** The product with the transmissibility matrix *)

(** P_vec after TDyUpdateState (pressures of the cells) and
    TDyMPFAO_SetBoundaryPressure (tdympfao_utils.c:690-759): after the [ncells]
    cells come the boundary faces, with the value of the boundary pressure function
    if there is one, else the pressure of the adjacent cell [adj]. *)
Definition P_vec (f : option (nat -> R)) (adj : nat -> nat) (ncells : nat) (P : nat -> R) (c : nat) : R :=
  if (c <? ncells)%nat then P c else match f with Some f => f (c - ncells)%nat | None => P (adj (c - ncells)%nat) end.
(** MatMult(Trans_mat, P_vec, TtimesP_vec); one row per sub-face. *)
Definition TtimesP (m : mesh) (l : list entry) (P : nat -> R) : list R := map (mult l P) (seq 0 (4 * length (faces m))).
