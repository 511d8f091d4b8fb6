(** Two-point gravity terms between cells with permeabilities along the axes. *)
From Coq Require Import Reals List Bool Arith ZArith Lia Lra.
From Verif Require Import Prelude Arrays SpecFvtpf Geom SpecGeom GeomProofs Mpfao Subcell SpecSubcell SubcellProofs SubcellStoreProofs SubcellMoreProofs Transport UGrid Gravity SpecGravity GravityProofs GravityMoreProofs GravityLayers.
Import ListNotations.
Local Open Scope R_scope.

Lemma along_diagonal : forall u w a b c, dot u u = 1 -> 0 < a -> 0 < b -> 0 < c -> mat_vec (diagonal a b c) w = u ->
  0 < dot u w /\ along u (diagonal a b c) = Some (/ dot u w).
Proof.
  intros u w a b c U Ha Hb Hc <-. unfold mat_vec, diagonal in U |- *. unfold along, fl1, dot in *. cbn [m0 m1 m2 m3_ m4 m5 m6 m7 m8 vx vy vz] in *.
  destruct w as [x y z]. cbn [vx vy vz] in *.
  assert (P : 0 < a * x * x + b * y * y + c * z * z).
  { destruct (Req_dec x 0) as [X|X]; [destruct (Req_dec y 0) as [Y|Y]; [destruct (Req_dec z 0) as [Z|Z]|]|].
    - subst. lra.
    - subst. assert (0 < z * z) by nra. nra.
    - assert (0 < y * y) by nra. assert (0 <= c * (z * z)) by (apply Rmult_le_pos; nra). assert (0 <= a * (x * x)) by (apply Rmult_le_pos; nra). nra.
    - assert (0 < x * x) by nra. assert (0 <= c * (z * z)) by (apply Rmult_le_pos; nra). assert (0 <= b * (y * y)) by (apply Rmult_le_pos; nra). nra. }
  split; [lra|]. rewrite (fdiv_ok _ a), (fdiv_ok _ b), (fdiv_ok _ c) by lra. cbn [fbind].
  match goal with |- fdiv 1 ?s = Some (/ ?t) => replace s with (a * x * x + b * y * y + c * z * z) by (field; lra); replace t with (a * x * x + b * y * y + c * z * z) by ring end.
  rewrite fdiv_ok by lra. f_equal. field. lra.
Qed.

Theorem tpf_diagonal : forall m f a b xA xB xf u wA wB a1 a2 a3 b1 b2 b3,
  nth_error (g_fcells (q_geo m)) f = Some (Z.of_nat a, Z.of_nat b) ->
  nth_error (g_cc (q_geo m)) a = Some xA -> nth_error (g_cc (q_geo m)) b = Some xB -> nth_error (g_fc (q_geo m)) f = Some xf ->
  nth_error (q_K m) a = Some (diagonal a1 a2 a3) -> nth_error (q_K m) b = Some (diagonal b1 b2 b3) ->
  0 < a1 -> 0 < a2 -> 0 < a3 -> 0 < b1 -> 0 < b2 -> 0 < b3 ->
  unit_between xA xB u -> mat_vec (diagonal a1 a2 a3) wA = u -> mat_vec (diagonal b1 b2 b3) wB = u ->
  0 < length3 (vsub xA xf) -> 0 < length3 (vsub xB xf) ->
  exists k, FaceValueTPF m f = Ok (Some k) /\
    forall pA pB, series (/ dot u wA) (/ dot u wB) (length3 (vsub xA xf)) (length3 (vsub xB xf)) pA pB (k * (pA - pB) / (length3 (vsub xA xf) + length3 (vsub xB xf))).
Proof.
  intros m f a b xA xB xf u wA wB a1 a2 a3 b1 b2 b3 Hc HA HB Hf KA KB P1 P2 P3 P4 P5 P6 Hu WA WB D1 D2.
  pose proof (unit_square _ _ _ Hu) as U.
  destruct (along_diagonal u wA a1 a2 a3 U P1 P2 P3 WA) as [RA LA]. destruct (along_diagonal u wB b1 b2 b3 U P4 P5 P6 WB) as [RB LB].
  set (kA := / dot u wA) in *. set (kB := / dot u wB) in *.
  assert (QA : 0 < kA) by (apply Rinv_0_lt_compat; exact RA). assert (QB : 0 < kB) by (apply Rinv_0_lt_compat; exact RB).
  exists (mean xA xB xf kA kB). split; [|exact (mean_series xA xB xf u kA kB Hu QA QB D1 D2)].
  pose proof (two_sides m f a b xA xB Hc HA HB) as SD.
  unfold FaceValueTPF. rewrite (unit_some m f xA xB u SD Hu). cbn [bind].
  assert (TT : UpAndDownTensors m f = Ok (diagonal a1 a2 a3, diagonal b1 b2 b3)).
  { unfold UpAndDownTensors. rewrite (rd_some _ _ _ Hc). cbn [bind fst snd].
    destruct (Z.ltb_spec (Z.of_nat a) 0); [lia|]. cbn [andb].
    destruct (Z.leb_spec 0 (Z.of_nat a)); [|lia]. destruct (Z.leb_spec 0 (Z.of_nat b)); [|lia].
    rewrite (rdz_some (q_K m) (Z.of_nat a) (diagonal a1 a2 a3)), (rdz_some (q_K m) (Z.of_nat b) (diagonal b1 b2 b3)); try lia; try (rewrite Nat2Z.id; assumption).
    reflexivity. }
  rewrite TT. cbn [bind fst snd].
  destruct (weight_some m f xA xB xf SD (proj1 Hu) Hf) as [d [Ed Ew]]. rewrite Ed. cbn [bind].
  rewrite LA, LB, Ew. unfold fl1. cbn [fbind]. do 1 f_equal.
  pose proof (mean_pos xA xB xf u kA kB Hu QA QB) as MP. unfold mean. cbv zeta in MP.
  set (w := length3 (vsub xA xf) / (length3 (vsub xA xf) + length3 (vsub xB xf))) in *.
  assert (N : 0 < w * kB + (1 - w) * kA).
  { replace (w * kB + (1 - w) * kA) with ((w * / kA + (1 - w) * / kB) * (kA * kB)) by (field; lra).
    apply Rmult_lt_0_compat; [exact MP|]. apply Rmult_lt_0_compat; assumption. }
  rewrite fdiv_ok by lra. f_equal. clearbody kA kB w. field. split; [lra|]. split; [|lra].
  intros Z. lra.
Qed.
