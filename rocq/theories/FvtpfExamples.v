(** Concrete problems used by Prop_Fvtpf.v. *)
From Coq Require Import Reals ZArith List Bool Arith Lia Lra.
From Coquelicot Require Import Coquelicot.
From Verif Require Import Prelude Arrays Fvtpf SpecFvtpf FvtpfProofs FvtpfDerivProofs FvtpfSumProofs FvtpfTotalProofs.
Import ListNotations.
Local Open Scope R_scope.

(** Two cells side by side along x, one interior face, one closed end. *)
Definition ex_face : face := mkFace 0 1 true true Neumann 1 1 (1, 0, 0) 1.
Definition ex_end : face := mkFace (-1) 1 true false Neumann 1 1 (1, 0, 0) 1.
Definition ex_K : list R := [1; 0; 0; 0; 1; 0; 0; 0; 1].
Definition ex_grid : grid := mkGrid [ex_face; ex_end] [mkRock (1/4) 1 0 true; mkRock (1/4) 1 0 true] (ex_K ++ ex_K) (0, 0, -10) 100000 60.
Definition water (P Kr : R) : cell := mkCell P 1000 0 (1/1000) 0 1 0 Kr 0.

Lemma ex_grid_good : forall nb, good_grid ex_grid 2 nb.
Proof.
  intro nb. split; [reflexivity|]. split; [simpl; lra|]. split.
  - intros f [<-|[<-|[]]]; unfold good_face, in_range; simpl; repeat split; try lra; try lia; left; lra.
  - intros i Hi. destruct i as [|[|i]]; [| |lia]; exists (1, 1, 1); (split; [repeat split; reflexivity|simpl; lra]).
Qed.
Lemma water_good : forall P Kr, 0 <= Kr -> good_cell (water P Kr).
Proof. intros. unfold good_cell; simpl; lra. Qed.
Lemma ex_wet : forall P P', wet ex_grid [water P 1; water P' 1].
Proof.
  intros P P' f [<-|[<-|[]]] _ I; [|discriminate I]. eexists _, _. split; [reflexivity|]. split; [reflexivity|]. left. unfold threshold; simpl; lra.
Qed.
Lemma ex_cells_good : forall P P' Kr Kr', 0 <= Kr -> 0 <= Kr' -> forall c, In c [water P Kr; water P' Kr'] -> good_cell c.
Proof. intros P P' Kr Kr' H H' c [<-|[<-|[]]]; apply water_good; assumption. Qed.

(** The same cells with no water: the interior flux routine never writes its
    result, and the residual is whatever the variable held. *)
Lemma ex_dry : forall v : R, SNESFunction ex_grid [water 0 0; water 0 0] [] [0; 0] (fun _ => Some (v - 1000 * (1/4) / 60)) 2
  = Ok [Some v; Some (2 * (1000 * (1/4) / 60) - v)].
Proof.
  intro v. unfold SNESFunction. unfold for_. simpl length. cbn [loop]. unfold internal_face at 1. cbn [rd nth_error faces ex_grid bind f_local f_internal ex_face negb].
  assert (E : RichardsResidual ex_grid [water 0 0; water 0 0] 0 (Some (v - 1000 * (1/4) / 60)) = Ok (Some (v - 1000 * (1/4) / 60))).
  { unfold RichardsResidual. cbn [rd nth_error faces ex_grid bind]. destruct (CalculateDistances _ _) as [dg uw].
    destruct (face_permeability_ok ex_grid 2 0 ex_face (ex_grid_good 0)) as [Dq [EDq _]]; [apply (ex_grid_good 0); left; reflexivity|].
    fold ex_grid. rewrite EDq. simpl. unfold richards_flux. replace (gt (c_Kr (water 0 0)) eps) with false; [reflexivity|].
    symmetry. apply gt_false. unfold eps; simpl; lra. }
  fold ex_grid. rewrite E. clear E. simpl. unfold accumulation_cell, Accumulation. simpl. rewrite !fdiv_ok by lra. simpl.
  f_equal. f_equal; [|f_equal]; f_equal; field.
Qed.

(** One cell with a Dirichlet face. *)
Definition ex_bface : face := mkFace (-1) 0 true false Dirichlet 1 1 (1, 0, 0) 1.
Definition ex_bgrid : grid := mkGrid [ex_bface] [mkRock (1/4) 1 0 true] ex_K (0, 0, 0) 100000 60.
Lemma ex_bgrid_good : good_grid ex_bgrid 1 3.
Proof.
  split; [reflexivity|]. split; [simpl; lra|]. split.
  - intros f [<-|[]]; unfold good_face, in_range; simpl; repeat split; try lra; try lia; left; lra.
  - intros i Hi. destruct i as [|i]; [|lia]; exists (1, 1, 1); (split; [repeat split; reflexivity|simpl; lra]).
Qed.
Lemma ex_dirichlet : forall b0 b1 P, 
  RichardsBCResidual ex_bgrid [mkCell 0 1 0 1 0 1 0 1 0] [b0; b1; mkBnd P 1 1 1 1] 0 (Some 0) = Ok (Some (1 / 2 * P)).
Proof.
  intros b0 b1 P. unfold RichardsBCResidual. cbn [rd nth_error faces ex_bgrid bind].
  change (CalculateDistances _ ex_bface) with (fst (CalculateDistances ex_bgrid ex_bface), snd (CalculateDistances ex_bgrid ex_bface)). cbv iota.
  fold ex_bgrid.
  assert (EK : ComputeFacePermeability ex_bgrid ex_bface = Ok (Some (1 / 2))).
  { unfold ComputeFacePermeability, ExtractUpAndDown, diagonal. simpl. unfold face_value, inverse_sum. simpl. rewrite !fdiv_ok by lra. simpl. rewrite !fdiv_ok by lra. simpl.
    rewrite !fdiv_ok by lra. f_equal. f_equal. field. }
  rewrite EK. cbn [bind].
  change (at_ [b0; b1; mkBnd P 1 1 1 1] (- f_up ex_bface + 1)) with (Ok (mkBnd P 1 1 1 1)). cbn [bind].
  change (at_ [mkCell 0 1 0 1 0 1 0 1 0] (f_dn ex_bface)) with (Ok (mkCell 0 1 0 1 0 1 0 1 0)). cbn [bind].
  rewrite (bc_value ex_bgrid ex_bface (1/2) (mkBnd P 1 1 1 1) (mkCell 0 1 0 1 0 1 0 1 0)); try (simpl; lra); [|left; unfold eps; simpl; lra].
  f_equal. f_equal. unfold face_density, threshold, potential_drop. simpl.
  destruct (Rlt_dec 1 (1 / 100000000)); [lra|]. destruct (Rle_dec _ _); field.
Qed.

(** Inflow through a Dirichlet face: flux (1 - x), reported derivative 0. *)
Definition inflow_cell (x : R) : cell := mkCell x 1 0 1 0 1 0 1 0.
Definition inflow_bnd : bnd := mkBnd 1 1 1 1 1.
Lemma inflow_consistent : forall p, consistent inflow_cell p.
Proof.
  intro p. split; [reflexivity|]. unfold inflow_cell; simpl. rewrite Rmult_0_l. split; [|split; [|split]]; apply const_derivative.
Qed.
Lemma inflow_jacobian : forall J, bc_jacobian 0 (Some (1/2)) (Some 1) 1 inflow_bnd (inflow_cell 0) J = Some 0.
Proof.
  intro J. unfold bc_jacobian, inflow_bnd, inflow_cell. cbn [b_Kr c_Kr]. replace (gt 1 eps) with true by (symmetry; apply gt_true; unfold eps; lra). cbn [orb].
  unfold set_weight. cbn [b_S c_S]. replace (lt 1 eps) with false by (symmetry; apply lt_false; unfold eps; lra). cbn [fbind b_P b_rho c_P c_rho c_drho].
  match goal with |- context [ge ?a 0] => replace (ge a 0) with true by (symmetry; apply ge_true; lra) end. simpl. f_equal. ring.
Qed.
Lemma inflow_derivative : forall Res, has_derivative (fun x => bc_flux 0 (Some (1/2)) (Some 1) 1 inflow_bnd (inflow_cell x) Res) 0 (-1).
Proof.
  intro Res. exists (fun x => 1 - x). split; [|auto_derive; [exact I|ring]].
  apply (filter_imp (fun x => x < 1)); [|apply locally_lt; lra]. intros x Hx.
  unfold bc_flux, inflow_bnd, inflow_cell. cbn [b_Kr c_Kr]. replace (gt 1 eps) with true by (symmetry; apply gt_true; unfold eps; lra). cbn [orb].
  unfold set_weight. cbn [b_S c_S]. replace (lt 1 eps) with false by (symmetry; apply lt_false; unfold eps; lra). cbn [fbind b_P b_rho c_P c_rho c_drho b_vis c_vis].
  match goal with |- context [ge ?a 0] => replace (ge a 0) with true by (symmetry; apply ge_true; lra) end. rewrite fdiv_ok by lra. cbn [fbind]. f_equal. field.
Qed.

(** Outflow of a compressible fluid through a tilted face. *)
Definition outflow_cell (x : R) : cell := mkCell x (1 + x) 1 1 0 1 0 1 0.
Definition outflow_bnd : bnd := mkBnd 0 1 1 1 1.
Lemma outflow_consistent : forall p, consistent outflow_cell p.
Proof.
  intro p. split; [reflexivity|]. unfold outflow_cell; simpl. rewrite Rmult_0_l. split; [auto_derive; [exact I|ring]|]. split; [|split]; apply const_derivative.
Qed.
Ltac outflow := unfold outflow_bnd, outflow_cell; cbn [b_Kr c_Kr]; replace (gt 1 eps) with true by (symmetry; apply gt_true; unfold eps; lra); cbn [orb];
  unfold set_weight; cbn [b_S c_S]; replace (lt 1 eps) with false by (symmetry; apply lt_false; unfold eps; lra); cbn [fbind b_P b_rho c_P c_rho c_drho b_vis c_vis];
  match goal with |- context [ge ?a 0] => replace (ge a 0) with false by (symmetry; apply ge_false; lra) end.
Lemma outflow_jacobian : forall J, bc_jacobian 1 (Some (1/2)) (Some 1) 1 outflow_bnd (outflow_cell 1) J = Some (- 25 / 8).
Proof.
  intro J. unfold bc_jacobian. outflow. unfold dukvr. cbn [c_Kr c_vis c_dKr c_dS c_dvis]. rewrite !fdiv_ok by lra. cbn [fbind]. f_equal. field.
Qed.
Lemma outflow_derivative : forall Res, has_derivative (fun x => bc_flux 1 (Some (1/2)) (Some 1) 1 outflow_bnd (outflow_cell x) Res) 1 (- 7 / 2).
Proof.
  intro Res. exists (fun x => (- x - (1 + x / 2)) * (1 + x / 2)). split; [|auto_derive; [exact I|field]].
  apply (filter_imp (fun x => 0 < x)); [|apply locally_gt; lra]. intros x Hx. unfold bc_flux. outflow. rewrite fdiv_ok by lra. cbn [fbind]. f_equal. field.
Qed.
Lemma seepage_outflow_jacobian : forall J, seepage_jacobian 0 1 (Some (1/2)) (Some 1) 1 outflow_bnd (outflow_cell 1) J = Some (- 25 / 8).
Proof.
  intro J. unfold seepage_jacobian. outflow. unfold dukvr. cbn [c_Kr c_vis c_dKr c_dS c_dvis]. rewrite !fdiv_ok by lra. cbn [fbind andb]. f_equal. field.
Qed.
Lemma seepage_outflow_derivative : forall Res, has_derivative (fun x => seepage_flux 0 1 (Some (1/2)) (Some 1) 1 outflow_bnd (outflow_cell x) Res) 1 (- 7 / 2).
Proof.
  intro Res. exists (fun x => (- x - (1 + x / 2)) * (1 + x / 2)). split; [|auto_derive; [exact I|field]].
  apply (filter_imp (fun x => 0 < x)); [|apply locally_gt; lra]. intros x Hx. unfold seepage_flux.
  unfold outflow_bnd, outflow_cell; cbn [b_Kr c_Kr]; replace (gt 1 eps) with true by (symmetry; apply gt_true; unfold eps; lra); cbn [orb];
  unfold set_weight; cbn [b_S c_S]; replace (lt 1 eps) with false by (symmetry; apply lt_false; unfold eps; lra); cbn [fbind b_P b_rho c_P c_rho c_drho b_vis c_vis].
  match goal with |- context [gt ?a 0] => replace (gt a 0) with false by (symmetry; apply gt_false; lra) end. cbn [andb].
  match goal with |- context [ge ?a 0] => replace (ge a 0) with false by (symmetry; apply ge_false; lra) end. rewrite fdiv_ok by lra. cbn [fbind]. f_equal. field.
Qed.
