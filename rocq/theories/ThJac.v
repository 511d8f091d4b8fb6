(** Model of the Jacobian of the water and heat mode of the multi-point flux scheme:
    src/fv/mpfao/tdympfao_th_ts.c:300-886.

    The state is that of Transport.v; [thermal] has the further arrays.  The matrix is
    the list of the values added to it, by rows and columns 2 i for the water and the
    pressure and 2 i + 1 for the energy and the temperature of cell i. *)
From Coq Require Import Reals ZArith List Bool Arith.
From Verif Require Import Prelude Arrays MpfaoTs Transport.
From Verif Require Fvtpf.
Import ListNotations.
Local Open Scope R_scope.

(** Per-cell arrays dvis_dT, dh_dP, dh_dT. *)
Record thermal := mkThermal { t_dvis_dT : R; t_dh_dP : R; t_dh_dT : R }.

(** Lines 407-449: ukvr, dukvr_dP, dukvr_dT, uh, duh_dP and duh_dT on the side that
    the water comes from. *)
Record upwind := mkUpwind { w_k : fl; w_kP : fl; w_kT : fl; w_h : R; w_hP : R; w_hT : R }.
Definition upwind_at (cs : list cell) (bs : list bnd) (hs : list heat) (hb : list R) (ts : list thermal) (z : Z) : outcome upwind :=
  if (0 <=? z)%Z then
    do c <- Fvtpf.at_ cs z; do e <- Fvtpf.at_ hs z; do t <- Fvtpf.at_ ts z;
    Ok (mkUpwind (fdiv (c_Kr c) (c_vis c))
      (flet a := fdiv (c_dKr c * c_dS c) (c_vis c); flet b := fdiv (c_Kr c) (c_vis c * c_vis c); Some (a - b * c_dvis c))
      (flet a := fdiv (c_dKr c * e_dS_dT e) (c_vis c); flet b := fdiv (c_Kr c) (c_vis c * c_vis c); Some (a - b * t_dvis_dT t))
      (e_h e) (t_dh_dP t) (t_dh_dT t))
  else
    do b <- Fvtpf.at_ bs (- z - 1); do h <- Fvtpf.at_ hb (- z - 1);
    Ok (mkUpwind (fdiv (b_Kr b) (b_vis b)) (Some 0) (Some 0) h 0 0).

(** The array Jac[4].  The matrix is filled by columns (tdydiscretization.c:168): Jac[0]
    and Jac[1] are the derivatives of water and energy by the pressure, Jac[2] and
    Jac[3] by the temperature. *)
Definition block : Type := (fl * fl * fl * fl)%type.
Definition block_map (g : fl -> fl) (J : block) : block := let '(a, b, c, d) := J in (g a, g b, g c, g d).
(** Lines 490-507 and 509-526. *)
Definition near_block (den ddP ddT : R) (k kP kT : fl) (h hP hT tp T gz : R) : block :=
  (flet k := k; flet kP := kP; Some (ddP * k * tp + den * kP * tp + den * k * T * (1 + ddP * gz)),
   flet k := k; flet kP := kP; Some (ddP * k * tp * h + den * kP * tp * h + den * k * T * (1 + ddP * gz) * h + den * k * tp * hP),
   flet k := k; flet kT := kT; Some (ddT * k * tp + den * kT * tp + den * k * T * (1 + ddT * gz)),
   flet k := k; flet kT := kT; Some (ddT * k * tp * h + den * kT * tp * h + den * k * T * (1 + ddT * gz) * h + den * k * tp * hT)).
(** Lines 528-531. *)
Definition far_block (den : R) (k : fl) (h T gz : R) : block :=
  (fl1 (fun k => den * k * T * (1 + 0 * gz)) k, fl1 (fun k => den * k * T * (1 + 0 * gz) * h) k,
   fl1 (fun k => den * k * T * (0 + 0 * gz)) k, fl1 (fun k => den * k * T * (0 + 0 * gz) * h) k).
(** Line 535: conduction. *)
Definition conduct (x : R) (J : block) : block := let '(a, b, c, d) := J in (a, b, c, fl1 (fun d => d + x) d).

(** MatSetValuesBlockedLocal with ADD_VALUES for one block. *)
Definition add_block (z : Z) (c : nat) (J : block) (B : Fvtpf.matrix) : Fvtpf.matrix :=
  let '(a, b, c0, d) := J in
  (z * 2, Z.of_nat (c * 2), a)%Z :: (z * 2 + 1, Z.of_nat (c * 2), b)%Z ::
  (z * 2, Z.of_nat (c * 2 + 1), c0)%Z :: (z * 2 + 1, Z.of_nat (c * 2 + 1), d)%Z :: B.

(** Lines 467-470: a derivative of a cell's density halved, 0 without a cell. *)
Definition half_of (l : list R) (z : Z) : outcome R := if (0 <=? z)%Z then do x <- Fvtpf.at_ l z; Ok (0.5 * x) else Ok 0.

(** Lines 479-544: the array Jac for the column of cell [cell_id].  [zup], [zdn]:
    cell_id_up and cell_id_dn after lines 459-460; [dd]: dden_dPup, dden_dPdn, dden_dTup,
    dden_dTdn.  The derivatives of the mobility and the enthalpy are 0 on the side that
    the water flows to (lines 398-405). *)
Definition th_block (zup zdn : Z) (tp den : R) (w : upwind) (dd : R * R * R * R) (cell_id : nat) (t tq g : R) : block :=
  let '(ddPup, ddPdn, ddTup, ddTdn) := dd in
  let flow_up := if Rlt_dec tp 0 then true else false in
  let onUp {A : Type} (zero x : A) : A := if flow_up then x else zero in
  let onDn {A : Type} (zero x : A) : A := if flow_up then zero else x in
  let J :=
    if (-1 <? zup)%Z && (Z.of_nat cell_id =? zup)%Z then
      near_block den ddPup ddTup (w_k w) (onUp (Some 0) (w_kP w)) (onUp (Some 0) (w_kT w)) (w_h w) (onUp 0 (w_hP w)) (onUp 0 (w_hT w)) tp t g
    else if (-1 <? zdn)%Z && (Z.of_nat cell_id =? zdn)%Z then
      near_block den ddPdn ddTdn (w_k w) (onDn (Some 0) (w_kP w)) (onDn (Some 0) (w_kT w)) (w_h w) (onDn 0 (w_hP w)) (onDn 0 (w_hT w)) tp t g
    else far_block den (w_k w) (w_h w) t g in
  block_map (fl1 (fun x => - chop x)) (conduct tq J).

(** Lines 473-554: one column. *)
Definition th_col (m : mesh) (gz : list R) (T TT : Trans) (iv irow : nat) (zup zdn : Z) (tp den : R) (w : upwind)
    (dd : R * R * R * R) (v : vert) (icol : nat) (B : Fvtpf.matrix) : outcome Fvtpf.matrix :=
  do cell_id <- rd (x_cells v) icol;
  do t <- rd3 T iv irow icol;
  do tq <- rd3 TT iv irow icol;
  do g <- rd gz cell_id;
  let J := th_block zup zdn tp den w dd cell_id t tq g in
  do u <- Fvtpf.at_ (rocks m) zup;
  let B := if k_local u then add_block zup cell_id J B else B in
  do d <- Fvtpf.at_ (rocks m) zdn;
  Ok (if k_local d then add_block zdn cell_id (block_map (fl1 Ropp) J) B else B).

(** Lines 389-555: one sub-face.  [junk]: content of the automatic array TtimesP, which
    is not assigned for faces that are not local. *)
Definition th_jac_row (m : mesh) (cs : list cell) (bs : list bnd) (hs : list heat) (hb : list R) (ts : list thermal) (gz TP : list R) (T TT : Trans)
    (junk : nat -> nat -> R) (iv : nat) (v : vert) (irow : nat) (B : Fvtpf.matrix) : outcome Fvtpf.matrix :=
  do face_id <- rd (x_faces v) irow;
  do subface_id <- rd (x_subs v) irow;
  do f <- rd (faces m) face_id;
  do tp <- (if f_local f then do x <- rd TP (face_id * 4 + subface_id); Ok (chop x) else Ok (junk iv irow));
  do w <- upwind_at cs bs hs hb ts (if Rlt_dec tp 0 then f_up f else f_dn f);
  do up <- side_at cs bs (f_up f);
  do dn <- side_at cs bs (f_dn f);
  let den := (0 + rho up + rho dn) * 0.5 in
  let zup := if (f_up f <? 0)%Z then f_dn f else f_up f in
  let zdn := if (f_dn f <? 0)%Z then zup else f_dn f in
  do ddPup <- half_of (map c_drho cs) zup;
  do ddPdn <- half_of (map c_drho cs) zdn;
  do ddTup <- half_of (map e_drho_dT hs) zup;
  do ddTdn <- half_of (map e_drho_dT hs) zdn;
  for_ (length (x_cells v)) (th_col m gz T TT iv irow zup zdn tp den w (ddPup, ddPdn, ddTup, ddTdn) v) B.
(** TDyMPFAOIJacobian_Vertices_TH, lines 300-574.  [nbf]: num_boundary_faces. *)
Definition th_jac_vertex (m : mesh) (nbf : list nat) (cs : list cell) (bs : list bnd) (hs : list heat) (hb : list R) (ts : list thermal) (gz TP : list R) (T TT : Trans)
    (junk : nat -> nat -> R) (iv : nat) (B : Fvtpf.matrix) : outcome Fvtpf.matrix :=
  do v <- rd (verts m) iv;
  do nb <- rd nbf iv;
  if (0 <? nb)%nat && (length (x_cells v) <? 2)%nat then Ok B
  else for_ (length (x_faces v)) (th_jac_row m cs bs hs hb ts gz TP T TT junk iv v) B.
Definition IJacobian_Vertices_TH (m : mesh) (nbf : list nat) (cs : list cell) (bs : list bnd) (hs : list heat) (hb : list R) (ts : list thermal) (gz TP : list R) (T TT : Trans)
    (junk : nat -> nat -> R) (B : Fvtpf.matrix) : outcome Fvtpf.matrix :=
  for_ (length (verts m)) (th_jac_vertex m nbf cs bs hs hb ts gz TP T TT junk) B.

(** TDyMPFAOIJacobian_Accumulation_TH, lines 577-841: the block of one cell.  [p'], [t']:
    dp_dt and dT_dt, [temp]: the temperature. *)
Section Accumulation.
Variables (c : cell) (e : heat) (k : rock) (temp : R).
(** Lines 629-665. *)
Let porosity := k_por k.  Let dporosity_dP := 0.  Let d2porosity_dP2 := 0.  Let dporosity_dT := 0.
Let d2porosity_dT2 := 0.  Let d2porosity_dTdP := 0.  Let d2porosity_dPdT := d2porosity_dTdP.
Let rho := c_rho c.  Let drho_dP := c_drho c.  Let drho_dT := e_drho_dT e.
Let d2rho_dP2 := c_d2rho c.  Let d2rho_dT2 := 0.  Let d2rho_dTdP := 0.  Let d2rho_dPdT := d2rho_dTdP.
Let sat := c_S c.  Let dsat_dP := c_dS c.  Let dsat_dT := e_dS_dT e.
Let d2sat_dP2 := c_d2S c.  Let d2sat_dT2 := 0.  Let d2sat_dTdP := 0.  Let d2sat_dPdT := d2sat_dTdP.
Let u := e_u e.  Let du_dP := e_du_dP e.  Let du_dT := e_du_dT e.
Let d2u_dT2 := 0.  Let d2u_dP2 := 0.  Let d2u_dTdP := 0.  Let d2u_dPdT := d2u_dTdP.
Let rock_dencpr := e_rho_soil e * e_c_soil e.

Definition acc_dmass_dP : R := rho * dporosity_dP * sat + drho_dP * porosity * sat + rho * porosity * dsat_dP.
Definition acc_d2mass_dP2 : R :=
  dsat_dP * rho * dporosity_dP + sat * drho_dP * dporosity_dP + sat * rho * d2porosity_dP2
  + dsat_dP * drho_dP * porosity + sat * d2rho_dP2 * porosity + sat * drho_dP * dporosity_dP
  + d2sat_dP2 * rho * porosity + dsat_dP * drho_dP * porosity + dsat_dP * rho * dporosity_dP.
Definition acc_d2mass_dPdT : R :=
  dsat_dT * drho_dP * porosity + sat * d2rho_dTdP * porosity + sat * drho_dP * dporosity_dT
  + d2sat_dTdP * rho * porosity + dsat_dP * drho_dT * porosity + dsat_dP * rho * dporosity_dT
  + dsat_dT * rho * dporosity_dP + sat * drho_dT * dporosity_dP + sat * rho * d2porosity_dTdP.
Definition acc_dmass_dT : R := sat * drho_dT * porosity + dsat_dT * rho * porosity + sat * rho * dporosity_dT.
Definition acc_d2mass_dT2 : R :=
  dsat_dT * drho_dT * porosity + sat * d2rho_dT2 * porosity + sat * drho_dT * dporosity_dT
  + d2sat_dT2 * rho * porosity + dsat_dT * drho_dT * porosity + dsat_dT * rho * dporosity_dT
  + dsat_dT * rho * dporosity_dT + sat * drho_dT * dporosity_dT + sat * rho * d2porosity_dT2.
Definition acc_denergy_dP : R :=
  drho_dP * porosity * sat * u + rho * dporosity_dP * sat * u + rho * porosity * dsat_dP * u + rho * porosity * sat * du_dP
  + rock_dencpr * (- dporosity_dP) * temp.
Definition acc_d2energy_dP2 : R :=
  d2rho_dP2 * porosity * sat * u + drho_dP * dporosity_dP * sat * u + drho_dP * porosity * dsat_dP * u + drho_dP * porosity * sat * du_dP
  + drho_dP * dporosity_dP * sat * u + rho * d2porosity_dP2 * sat * u + rho * dporosity_dP * dsat_dP * u + rho * dporosity_dP * sat * du_dP
  + drho_dP * porosity * dsat_dP * u + rho * dporosity_dP * dsat_dP * u + rho * porosity * d2sat_dP2 * u + rho * porosity * dsat_dP * du_dP
  + drho_dP * porosity * sat * du_dP + rho * dporosity_dP * sat * du_dP + rho * porosity * dsat_dP * du_dP + rho * porosity * sat * d2u_dP2
  + rock_dencpr * (- d2porosity_dP2) * temp.
Definition acc_d2energy_dPdT : R :=
  d2rho_dPdT * porosity * sat * u + drho_dP * dporosity_dT * sat * u + drho_dP * porosity * dsat_dT * u + drho_dP * porosity * sat * du_dT
  + drho_dT * dporosity_dP * sat * u + rho * d2porosity_dPdT * sat * u + rho * dporosity_dP * dsat_dT * u + rho * dporosity_dP * sat * du_dT
  + drho_dT * porosity * dsat_dP * u + rho * dporosity_dT * dsat_dP * u + rho * porosity * d2sat_dPdT * u + rho * porosity * dsat_dP * du_dT
  + drho_dT * porosity * sat * du_dP + rho * dporosity_dT * sat * du_dP + rho * porosity * dsat_dT * du_dP + rho * porosity * sat * d2u_dPdT
  + rock_dencpr * (- d2porosity_dPdT) * temp + rock_dencpr * (- dporosity_dP).
Definition acc_denergy_dT : R :=
  drho_dT * porosity * sat * u + rho * dporosity_dT * sat * u + rho * porosity * dsat_dT * u + rho * porosity * sat * du_dT
  + rock_dencpr * (- dporosity_dT) * temp + rock_dencpr * (1 - porosity).
Definition acc_d2energy_dT2 : R :=
  d2rho_dT2 * porosity * sat * u + drho_dT * dporosity_dT * sat * u + drho_dT * porosity * dsat_dT * u + drho_dT * porosity * sat * du_dT
  + drho_dT * dporosity_dT * sat * u + rho * d2porosity_dT2 * sat * u + rho * dporosity_dT * dsat_dT * u + rho * dporosity_dT * sat * du_dT
  + drho_dT * porosity * dsat_dT * u + rho * dporosity_dT * dsat_dT * u + rho * porosity * d2sat_dT2 * u + rho * porosity * dsat_dT * du_dT
  + drho_dT * porosity * sat * du_dT + rho * dporosity_dT * sat * du_dT + rho * porosity * dsat_dT * du_dT + rho * porosity * sat * d2u_dT2
  + rock_dencpr * (- d2porosity_dT2) * temp + rock_dencpr * (- dporosity_dT) + rock_dencpr * (- dporosity_dT).

(** Lines 704, 785, 728 and 821. *)
Definition acc_block (shift p' t' : R) : R * R * R * R :=
  ((shift * acc_dmass_dP + acc_d2mass_dP2 * p' + acc_d2mass_dPdT * t') * k_vol k,
   (shift * acc_denergy_dP + acc_d2energy_dP2 * p' + acc_d2energy_dPdT * t') * k_vol k,
   (shift * acc_dmass_dT + acc_d2mass_dT2 * t' + acc_d2mass_dPdT * p') * k_vol k,
   (shift * acc_denergy_dT + acc_d2energy_dT2 * t' + acc_d2energy_dPdT * p') * k_vol k).
End Accumulation.

(** Lines 623-825.  [du_dt]: the array of the local vector Udotl. *)
Definition th_acc (m : mesh) (cs : list cell) (hs : list heat) (shift : R) (dp_dt dT_dt temp : list R) (icell : nat) (B : Fvtpf.matrix) : outcome Fvtpf.matrix :=
  do k <- rd (rocks m) icell;
  if negb (k_local k) then Ok B
  else
    do c <- rd cs icell;
    do e <- rd hs icell;
    do p' <- rd dp_dt icell;
    do t' <- rd dT_dt icell;
    do t <- rd temp icell;
    let '(a, b, c0, d) := acc_block c e k t shift p' t' in
    Ok (add_block (Z.of_nat icell) icell (Some a, Some b, Some c0, Some d) B).
(** TDyMPFAOIJacobian_TH, lines 844-886. *)
Definition IJacobian_TH (m : mesh) (nbf : list nat) (cs : list cell) (bs : list bnd) (hs : list heat) (hb : list R) (ts : list thermal) (gz TP : list R) (T TT : Trans)
    (junk : nat -> nat -> R) (shift : R) (du_dt u_p : list R) : outcome Fvtpf.matrix :=
  do B <- IJacobian_Vertices_TH m nbf cs bs hs hb ts gz TP T TT junk [];
  do dp_dt <- unpack 0 du_dt (length (rocks m));
  do dT_dt <- unpack 1 du_dt (length (rocks m));
  do temp <- unpack 1 u_p (length (rocks m));
  for_ (length (rocks m)) (th_acc m cs hs shift dp_dt dT_dt temp) B.
