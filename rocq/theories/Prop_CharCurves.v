(** Properties C01-C04: scalar characteristic curves. *)
From Coq Require Import Reals Lra.
From Coquelicot Require Import Coquelicot.
From Verif Require Import Prelude CharCurves SpecCurves CharCurvesProofs.
Local Open Scope R_scope.

(** C01: the reported saturation is a number between residual and 1, equal to
    1 at or above the reference pressure and strictly between below it. *)
Theorem C01_saturation_bounds : forall c Sr Pref P,
  admissible_sat c -> 0 <= Sr <= 1 ->
  exists s, S_at c Sr Pref P = Some s /\ Sr <= s <= 1 /\
            (Pref <= P -> s = 1) /\ (P < Pref -> Sr < 1 -> Sr < s < 1).
Proof. exact saturation_bounds. Qed.
Print Assumptions C01_saturation_bounds.

Example C01_saturation_bounds_case :
  admissible_sat (VanGenuchten 0.5 (1/10000)) /\ 0 <= 0.15 <= 1 /\ 90000 < 101325.
Proof. simpl; lra. Qed.

(** C01: saturation never increases with capillary pressure (never decreases
    with liquid pressure). *)
Theorem C01_saturation_monotone : forall c Sr Pref P Q s t,
  admissible_sat c -> 0 <= Sr <= 1 -> P <= Q ->
  S_at c Sr Pref P = Some s -> S_at c Sr Pref Q = Some t -> s <= t.
Proof. exact saturation_monotone. Qed.
Print Assumptions C01_saturation_monotone.

Example C01_saturation_monotone_case :
  exists s t, S_at (Gardner 3 0.8 (1/10000)) 0.15 101325 91325 = Some s /\
              S_at (Gardner 3 0.8 (1/10000)) 0.15 101325 101325 = Some t /\ s < t.
Proof.
  destruct (saturation_bounds (Gardner 3 0.8 (1/10000)) 0.15 101325 91325) as (s & Hs & _ & _ & B);
    [simpl; lra|lra|].
  destruct (saturation_bounds (Gardner 3 0.8 (1/10000)) 0.15 101325 101325) as (t & Ht & _ & F & _);
    [simpl; lra|lra|].
  exists s, t. split; [exact Hs|split; [exact Ht|]].
  specialize (B ltac:(lra) ltac:(lra)). specialize (F ltac:(lra)). lra.
Qed.

(** C02: away from the reference pressure the reported first and second
    derivatives are the derivatives of the reported saturation and of the
    reported first derivative. *)
Theorem C02_saturation_derivatives : forall c Sr Pref P,
  admissible_sat c -> P <> Pref ->
  exists d d2, dS_at c Sr Pref P = Some d /\ d2S_at c Sr Pref P = Some d2 /\
    has_derivative (S_at c Sr Pref) P d /\ has_derivative (dS_at c Sr Pref) P d2.
Proof. exact saturation_derivatives. Qed.
Print Assumptions C02_saturation_derivatives.

Example C02_saturation_derivatives_case :
  admissible_sat (Gardner 3 0.8 (1/10000)) /\ 90000 <> 101325.
Proof. simpl; lra. Qed.

(** C02: at the reference pressure the reported first derivative is a
    one-sided derivative. *)
Theorem C02_saturation_derivative_at_reference : forall c Sr Pref,
  admissible_sat c ->
  exists d, dS_at c Sr Pref Pref = Some d /\
    (has_left_derivative (S_at c Sr Pref) Pref d \/ has_right_derivative (S_at c Sr Pref) Pref d).
Proof. exact saturation_derivative_kink. Qed.
Print Assumptions C02_saturation_derivative_at_reference.

Example C02_saturation_derivative_at_reference_case : admissible_sat (VanGenuchten 0.5 (1/10000)).
Proof. simpl; lra. Qed.

(** C03: values of relative permeability. *)
Theorem C03_rel_perm_bounds : forall c Se,
  admissible_kr c -> 0 <= Se <= 1 ->
  exists k, fst (rel_perm c Se) = Some k /\ 0 <= k <= 1 /\ (Se = 0 -> k = 0) /\ (Se = 1 -> k = 1)
            /\ (0 < Se < 1 -> 0 < k < 1).
Proof. exact rel_perm_bounds. Qed.
Print Assumptions C03_rel_perm_bounds.

Example C03_rel_perm_bounds_case : admissible_kr (Mualem_unsmoothed 0.5) /\ 0 <= 0.3 <= 1.
Proof. simpl; lra. Qed.

Theorem C03_rel_perm_monotone : forall c p q k l,
  admissible_kr c -> 0 <= p -> p <= q -> q <= 1 ->
  fst (rel_perm c p) = Some k -> fst (rel_perm c q) = Some l -> k <= l.
Proof. exact rel_perm_monotone. Qed.
Print Assumptions C03_rel_perm_monotone.

Example C03_rel_perm_monotone_case :
  exists k l, fst (rel_perm (Irmay 2) 0) = Some k /\ fst (rel_perm (Irmay 2) 0.5) = Some l /\ k < l.
Proof.
  destruct (rel_perm_bounds (Irmay 2) 0) as (k & Hk & _ & K0 & _); [simpl; lra|lra|].
  destruct (rel_perm_bounds (Irmay 2) 0.5) as (l & Hl & _ & _ & _ & L); [simpl; lra|lra|].
  exists k, l. split; [exact Hk|split; [exact Hl|]].
  specialize (K0 eq_refl). specialize (L ltac:(lra)). lra.
Qed.

(** C03: the reported derivative is the derivative of the reported value,
    strictly between dry and saturated. *)
Theorem C03_rel_perm_derivative : forall c Se,
  admissible_kr c -> 0 < Se < 1 ->
  exists d, snd (rel_perm c Se) = Some d /\ has_derivative (fun x => fst (rel_perm c x)) Se d.
Proof. exact rel_perm_derivative. Qed.
Print Assumptions C03_rel_perm_derivative.

Example C03_rel_perm_derivative_case : admissible_kr (Mualem_unsmoothed 0.5) /\ 0 < 0.3 < 1.
Proof. simpl; lra. Qed.

(** C03, finding: at a completely dry point the Mualem model reports a
    derivative that is not a number (0/0 at tdycharacteristiccurves.c:482). *)
Theorem C03_mualem_dry_derivative_refuted :
  exists m, admissible_kr (Mualem_unsmoothed m) /\ snd (rel_perm (Mualem_unsmoothed m) 0) = None.
Proof. exists 0.5. split; [simpl; lra|apply mualem_dry_derivative; lra]. Qed.
Print Assumptions C03_mualem_dry_derivative_refuted.

(** C04: the setup determines the smoothing cubic: the system is solvable and
    has one solution. *)
Theorem C04_smoothing_determined : forall m x0 x1 x2 dx,
  0 < m -> 0 < x1 < 1 -> x1 < x2 -> dx <> 0 ->
  (exists c0 c1 c2 c3, smoothing_coeffs m x0 x1 x2 dx c0 c1 c2 c3) /\
  (forall c0 c1 c2 c3 e0 e1 e2 e3,
     smoothing_coeffs m x0 x1 x2 dx c0 c1 c2 c3 -> smoothing_coeffs m x0 x1 x2 dx e0 e1 e2 e3 ->
     c0 = e0 /\ c1 = e1 /\ c2 = e2 /\ c3 = e3).
Proof. exact smoothing_determined. Qed.
Print Assumptions C04_smoothing_determined.

Example C04_smoothing_determined_case : (* the library defaults, src/tdycore.c:283-286 *)
  0 < 0.5 /\ 0 < 0.99 < 1 /\ 0.99 < 1 /\ 0.005 <> 0.
Proof. lra. Qed.

(** C04: the smoothed curve is differentiable at every positive saturation,
    including the junction, with the reported derivative. *)
Theorem C04_smoothed_derivative : forall m x0 x1 x2 dx c0 c1 c2 c3 Se,
  0 < m -> 0 < x1 < 1 -> 0 < Se ->
  smoothing_coeffs m x0 x1 x2 dx c0 c1 c2 c3 ->
  exists d, snd (mualem m x0 x1 dx c0 c1 c2 c3 Se) = Some d /\
    has_derivative (fun Se => fst (mualem m x0 x1 dx c0 c1 c2 c3 Se)) Se d.
Proof. exact mualem_smoothed_derivative. Qed.
Print Assumptions C04_smoothed_derivative.

(** C04: up to the junction the curve is the unsmoothed one; just above it the
    same polynomial is used whose value and slope at the junction are those of
    the unsmoothed curve. *)
Theorem C04_junction_values : forall m x0 x1 x2 dx c0 c1 c2 c3,
  smoothing_coeffs m x0 x1 x2 dx c0 c1 c2 c3 ->
  cubic_evaluate c0 c1 c2 c3 x1 x0 dx = mualem_unsmoothed m x1 /\
  mualem m x0 x1 dx c0 c1 c2 c3 x1 = mualem_unsmoothed m x1.
Proof. exact smoothing_junction. Qed.
Print Assumptions C04_junction_values.

(** C04: value 1 and slope 0 at the end of the interval. *)
Theorem C04_smoothed_end : forall m x0 x1 x2 dx c0 c1 c2 c3,
  x1 < x2 -> smoothing_coeffs m x0 x1 x2 dx c0 c1 c2 c3 ->
  mualem m x0 x1 dx c0 c1 c2 c3 x2 = (Some 1, Some 0).
Proof. exact mualem_smoothed_end. Qed.
Print Assumptions C04_smoothed_end.

(** C04: between the ends the smoothed value stays between its end values,
    provided the slope at the junction is at most three times the secant
    slope. *)
Theorem C04_smoothed_bounds : forall m x0 x1 x2 dx c0 c1 c2 c3 Kr dKr Se,
  x1 < x2 -> smoothing_coeffs m x0 x1 x2 dx c0 c1 c2 c3 ->
  mualem_unsmoothed m x1 = (Some Kr, Some dKr) ->
  Kr <= 1 -> 0 <= dKr -> dKr * (x2 - x1) <= 3 * (1 - Kr) -> x1 < Se <= x2 ->
  exists k, fst (mualem m x0 x1 dx c0 c1 c2 c3 Se) = Some k /\ Kr <= k <= 1.
Proof. exact mualem_smoothed_bounds. Qed.
Print Assumptions C04_smoothed_bounds.

Example C04_smoothing_case :
  exists c0 c1 c2 c3, smoothing_coeffs 0.5 0.995 0.99 1 0.005 c0 c1 c2 c3.
Proof. apply smoothing_determined; lra. Qed.

Example C04_smoothed_bounds_case :
  exists Kr dKr, mualem_unsmoothed 0.5 0.6 = (Some Kr, Some dKr) /\
    Kr <= 1 /\ 0 <= dKr /\ dKr * (1 - 0.6) <= 3 * (1 - Kr).
Proof.
  exists (mu_val 0.5 0.6), (mu_d 0.5 0.6). split; [apply mualem_mid; lra|].
  assert (Ha : Rpower 0.6 (1 / 0.5) = 0.36).
  { replace (1 / 0.5) with (1 + 1) by lra. rewrite Rpower_plus, Rpower_1 by lra. lra. }
  assert (Hs : sqrt 0.64 = 0.8).
  { replace 0.64 with (0.8 * 0.8) by lra. apply sqrt_square. lra. }
  assert (Ht : mu_t 0.5 0.6 = 0.8).
  { unfold mu_t. rewrite Ha. replace (1 - 0.36) with 0.64 by lra. rewrite Rpower_half by lra. exact Hs. }
  assert (Hr : 0 < sqrt 0.6 < 1).
  { split; [apply sqrt_lt_R0; lra|]. rewrite <- sqrt_1. apply sqrt_lt_1; lra. }
  assert (Hp : Rpower 0.6 (1 / 0.5 - 0.5) = 0.6 * sqrt 0.6).
  { replace (1 / 0.5 - 0.5) with (1 + 0.5) by lra. rewrite Rpower_plus, Rpower_1, Rpower_half by lra. reflexivity. }
  assert (Hq : Rpower (1 - Rpower 0.6 (1 / 0.5)) (0.5 - 1) = / 0.8).
  { rewrite Ha. replace (1 - 0.36) with 0.64 by lra. replace (0.5 - 1) with (Ropp 0.5) by lra.
    rewrite Rpower_Ropp, Rpower_half, Hs by lra. reflexivity. }
  unfold mu_d, mu_val. rewrite Ht, Hp, Hq. repeat split; lra.
Qed.
