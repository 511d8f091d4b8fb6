(** C69: the state of the cells in the Wheeler-Yotov method. *)
From Coq Require Import Reals List Arith Lia Lra.
From Coquelicot Require Import Coquelicot.
From Verif Require Import Prelude Arrays CharCurves SpecCurves CharCurveSet SpecCurveSet Eos State SpecState StateProofs WyState WyStateProofs.
Import ListNotations.
Local Open Scope R_scope.

(** ** C69 *)

(** Saturation, relative permeability and permeability of every cell are those of its
    curves and its permeability at its own pressure, if the residual saturation is zero. *)
Theorem C69_state_partial : forall g N sc kc mats U pts, curves_set g N sc kc -> length mats = N -> length pts = N -> (N <= length U)%nat ->
  exists pts', state_WY g mats N U pts = Ok pts' /\ length pts' = N /\
    forall c f, nth_error mats c = Some f -> exists p, nth_error pts' c = Some p /\
      wet_state g (sc c) (kc c) (mkMaterial 0 (K0 f) [] 0) (nth c U 0) p /\ (Sr f = 0 -> wet_state g (sc c) (kc c) f (nth c U 0) p).
Proof. exact wy_state. Qed.
Print Assumptions C69_state_partial.

(** The residual saturation of the material is never read: the saturation can fall below it. *)
Theorem C69_residual_saturation_refuted : exists g N sc kc mats U pts pts' f p s,
  curves_set g N sc kc /\ (forall c, admissible_sat (sc c)) /\ length mats = N /\ length pts = N /\ (N <= length U)%nat
  /\ state_WY g mats N U pts = Ok pts' /\ nth_error mats 0 = Some f /\ 0 <= Sr f < 1
  /\ nth_error pts' 0 = Some p /\ fst (fst (p_sat p)) = Some s /\ s < Sr f.
Proof. exact wy_dry. Qed.
Print Assumptions C69_residual_saturation_refuted.

(** Two cells under pressure are saturated and have their full permeability. *)
Example C69_example : exists g sc kc pts', curves_set g 2 sc kc
  /\ state_WY g [mkMaterial 0 [3] [] 0; mkMaterial 0 [5] [] 0] 2 [200000; 101325] (points (fresh 2 2)) = Ok pts'
  /\ exists p, nth_error pts' 1 = Some p /\ fst (fst (p_sat p)) = Some 1.
Proof.
  destruct example_curves as (a & b & c0 & c1 & c2 & c3 & _ & HC & _).
  destruct (C69_state_partial _ 2 _ _ [mkMaterial 0 [3] [] 0; mkMaterial 0 [5] [] 0] [200000; 101325] (points (fresh 2 2)) HC eq_refl eq_refl ltac:(simpl; lia)) as (pts' & E & _ & H).
  eexists. eexists. eexists. exists pts'. split; [exact HC|]. split; [exact E|].
  destruct (H 1%nat _ eq_refl) as (p & Np & [Hp _] & _). exists p. split; [exact Np|]. rewrite Hp. cbn [Sr nth].
  destruct (CharCurvesProofs.saturation_bounds (VanGenuchten 0.5 (1/10000)) 0 101325 101325 ltac:(simpl; lra) ltac:(lra)) as (s & Es & _ & H1 & _).
  etransitivity; [exact Es|]. f_equal. apply H1. lra.
Qed.
