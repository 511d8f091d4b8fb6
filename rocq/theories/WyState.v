(** Model of the state of the cells in the Wheeler-Yotov method: the material arrays
    of TDySetup_WY (src/fe/tdywy.c:453-514) and TDyUpdateState_WY (lines 973-1017).

    Simplification: as in State.v, the arrays with one entry per cell are one array of
    records; of a record only the saturation, the relative permeability and K are used
    by this method.  The stride of K and K0 is that of the matrix. *)
From Coq Require Import Reals List Arith.
From Verif Require Import Prelude Arrays CharCurveSet State.
Import ListNotations.
Local Open Scope R_scope.

(** K0 is computed from the material properties (line 512); Sr is allocated (462), and
    zero from then on. *)
Definition setup_material (f : material) : material := mkMaterial 0 (K0 f) [] 0.

(** Lines 1006-1013. *)
Definition scale_cell (mats : list material) (c : nat) (pts : list point) : outcome (list point) :=
  do p <- rd pts c;
  do f <- rd mats c;
  let kr := (fst (p_kr p), fl2 Rmult (snd (p_kr p)) (fdiv 1 (1 - Sr f))) in
  let K := map (fun k0 => fl1 (fun k => k0 * k) (fst kr)) (K0 f) in
  wr pts c (mkPoint (p_sat p) kr K (p_rho p) (p_vis p) (p_salt p) (p_Kappa p) (p_h p) (p_u p) (p_du_dP p) (p_du_dT p) (p_drho_dT p) (p_dS_dT p)).
Definition UpdateState_WY (g : setting) (mats : list material) (nc : nat) (U : list R) (pts : list point) : outcome (list point) :=
  do Ps <- gather Richards 0 U nc;
  do pts <- curves g mats nc (map (fun P => Pref g - P) Ps) pts;
  for_ nc (scale_cell mats) pts.
(** Setup followed by an update, for cells with the materials [mats]. *)
Definition state_WY (g : setting) (mats : list material) (nc : nat) (U : list R) (pts : list point) : outcome (list point) :=
  UpdateState_WY g (map setup_material mats) nc U pts.
