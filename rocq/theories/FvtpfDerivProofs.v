From Coq Require Import Reals ZArith List Bool Arith Lia Lra.
From Coquelicot Require Import Coquelicot.
From Verif Require Import Prelude Arrays Fvtpf SpecFvtpf FvtpfProofs.
Import ListNotations.
Local Open Scope R_scope.

Lemma derive_gt : forall (f : R -> R) p d a, is_derive f p d -> a < f p -> locally p (fun x => a < f x).
Proof.
  intros f p d a D H. assert (C : continuous f p) by (apply (ex_derive_continuous (K:=R_AbsRing) (V:=R_NormedModule) f p); exists d; exact D).
  apply (C (fun y => a < y)). apply locally_gt. exact H.
Qed.
Lemma derive_lt : forall (f : R -> R) p d a, is_derive f p d -> f p < a -> locally p (fun x => f x < a).
Proof.
  intros f p d a D H. assert (C : continuous f p) by (apply (ex_derive_continuous (K:=R_AbsRing) (V:=R_NormedModule) f p); exists d; exact D).
  apply (C (fun y => y < a)). apply locally_lt. exact H.
Qed.

(** Derivative of a flux with varying upstream mobility, density and pressure. *)
Lemma flux_derivative : forall (P kr vis den : R -> R) (p dP dk dv dd Dq Pd dg area : R),
  is_derive P p dP -> is_derive kr p dk -> is_derive vis p dv -> is_derive den p dd -> vis p <> 0 ->
  is_derive (fun x => Dq * (kr x / vis x) * (P x - den x * dg) * area * den x) p
    (Dq * ((dk / vis p - kr p * dv / vis p ^ 2) * (P p - den p * dg) + kr p / vis p * (dP - dg * dd)) * area * den p
     + Dq * (kr p / vis p) * (P p - den p * dg) * area * dd).
Proof.
  intros P kr vis den p dP dk dv dd Dq Pd dg area HP Hk Hv Hd N.
  auto_derive.
  - repeat split; try (eexists; eassumption). exact N.
  - replace (Derive (fun x => P x) p) with dP by (symmetry; apply is_derive_unique; exact HP).
    replace (Derive (fun x => kr x) p) with dk by (symmetry; apply is_derive_unique; exact Hk).
    replace (Derive (fun x => vis x) p) with dv by (symmetry; apply is_derive_unique; exact Hv).
    replace (Derive (fun x => den x) p) with dd by (symmetry; apply is_derive_unique; exact Hd).
    field. exact N.
Qed.

Lemma affine_derivative : forall (r : R -> R) p d w k, is_derive r p d -> is_derive (fun x => w * r x + k) p (w * d).
Proof.
  intros r p d w k D. auto_derive; [eexists; exact D|].
  replace (Derive (fun x => r x) p) with d by (symmetry; apply is_derive_unique; exact D). ring.
Qed.
Lemma affine_derivative_r : forall (r : R -> R) p d w k, is_derive r p d -> is_derive (fun x => k + w * r x) p (w * d).
Proof.
  intros r p d w k D. auto_derive; [eexists; exact D|].
  replace (Derive (fun x => r x) p) with d by (symmetry; apply is_derive_unique; exact D). ring.
Qed.
Lemma phi_derivative : forall (P den : R -> R) p dP dd dg, is_derive P p dP -> is_derive den p dd ->
  is_derive (fun x => P x - den x * dg) p (dP - dd * dg).
Proof.
  intros P den p dP dd dg HP Hd. auto_derive; [split; [eexists; exact HP|split; [eexists; exact Hd|exact I]]|].
  replace (Derive (fun x => P x) p) with dP by (symmetry; apply is_derive_unique; exact HP).
  replace (Derive (fun x => den x) p) with dd by (symmetry; apply is_derive_unique; exact Hd). ring.
Qed.

(** The weight does not change near a state off the threshold. *)
Lemma weight_stable_up : forall (S : R -> R) p d Sd uw, is_derive S p d -> S p <> eps ->
  locally p (fun x => set_weight (S x) Sd uw = set_weight (S p) Sd uw).
Proof.
  intros S p d Sd uw D N. unfold set_weight, lt. destruct (Rlt_dec (S p) eps) as [L|L].
  - apply (filter_imp (fun x => S x < eps)); [|apply (derive_lt S p d eps D L)].
    intros x Hx. destruct (Rlt_dec (S x) eps); [reflexivity|lra].
  - apply (filter_imp (fun x => eps < S x)); [|apply (derive_gt S p d eps D); lra].
    intros x Hx. destruct (Rlt_dec (S x) eps); [lra|reflexivity].
Qed.
Lemma weight_stable_dn : forall (S : R -> R) p d Su uw, is_derive S p d -> S p <> eps ->
  locally p (fun x => set_weight Su (S x) uw = set_weight Su (S p) uw).
Proof.
  intros S p d Su uw D N. unfold set_weight, lt. destruct (Rlt_dec Su eps) as [L0|L0]; [apply filter_forall; reflexivity|].
  destruct (Rlt_dec (S p) eps) as [L|L].
  - apply (filter_imp (fun x => S x < eps)); [|apply (derive_lt S p d eps D L)].
    intros x Hx. destruct (Rlt_dec (S x) eps); [reflexivity|lra].
  - apply (filter_imp (fun x => eps < S x)); [|apply (derive_gt S p d eps D); lra].
    intros x Hx. destruct (Rlt_dec (S x) eps); [lra|reflexivity].
Qed.

Lemma wet_stable : forall (k : R -> R) p d K, is_derive k p d -> gt (k p) eps || K = true ->
  locally p (fun x => gt (k x) eps || K = true).
Proof.
  intros k p d K D H. destruct K; [apply filter_forall; intro; apply orb_true_r|].
  rewrite orb_false_r in H. apply gt_true in H. apply (filter_imp (fun x => eps < k x)); [|apply (derive_gt k p d eps D H)].
  intros x Hx. rewrite orb_false_r. apply gt_true. exact Hx.
Qed.

Lemma ge_stable : forall (f : R -> R) p d, is_derive f p d -> f p <> 0 -> locally p (fun x => ge (f x) 0 = ge (f p) 0).
Proof.
  intros f p d D N. destruct (ge (f p) 0) eqn:E.
  - apply ge_true in E. apply (filter_imp (fun x => 0 < f x)); [|apply (derive_gt f p d 0 D); lra].
    intros x Hx. apply ge_true. lra.
  - apply ge_false in E. apply (filter_imp (fun x => f x < 0)); [|apply (derive_lt f p d 0 D); lra].
    intros x Hx. apply ge_false. lra.
Qed.

Ltac id_derive := auto_derive; [auto|ring].


Lemma const_derivative : forall (k p : R), is_derive (fun _ => k) p 0.
Proof. intros k p. auto_derive; [exact I|reflexivity]. Qed.

Lemma vis_stable : forall (v : R -> R) p d, is_derive v p d -> v p <> 0 -> locally p (fun x => v x <> 0).
Proof.
  intros v p d D N. destruct (Rdichotomy _ _ N) as [L|L].
  - apply (filter_imp (fun x => v x < 0)); [intros; lra|apply (derive_lt _ _ _ _ D L)].
  - apply (filter_imp (fun x => 0 < v x)); [intros; lra|apply (derive_gt _ _ _ _ D L)].
Qed.

Ltac conclude D := match type of D with is_derive _ _ ?v => match goal with |- is_derive _ _ ?u => replace u with v; [exact D|] end end.

Section Face.
Variables (dg w0 Dq area : R).

Lemma richards_jacobian_up_raw : forall (c : R -> cell) p dn w Res J,
  consistent c p -> c_vis (c p) <> 0 -> c_vis dn <> 0 ->
  gt (c_Kr (c p)) eps || gt (c_Kr dn) eps = true ->
  c_S (c p) <> eps -> set_weight (c_S (c p)) (c_S dn) (Some w0) = Some w ->
  p - c_P dn - (w * c_rho (c p) + (1 - w) * c_rho dn) * dg <> 0 ->
  exists a b, richards_jacobian dg (Some w0) (Some Dq) area (c p) dn J = (Some a, Some b)
   /\ has_derivative (fun x => richards_flux dg (Some w0) (Some Dq) area (c x) dn Res) p a.
Proof.
  intros c p dn w Res J [CP [Cr [Cv [CS Ck]]]] Vu Vd W NS Hw Nd.
  unfold richards_jacobian. rewrite W, Hw. simpl fbind. rewrite CP.
  set (den := fun x => w * c_rho (c x) + (1 - w) * c_rho dn).
  change (w * c_rho (c p) + (1 - w) * c_rho dn) with (den p) in *.
  assert (Dden : is_derive den p (w * c_drho (c p))) by (apply affine_derivative; exact Cr).
  assert (DP : is_derive (fun x => x - c_P dn) p 1) by id_derive.
  assert (Dphi : is_derive (fun x => x - c_P dn - den x * dg) p (1 - w * c_drho (c p) * dg)) by (apply phi_derivative; assumption).
  pose proof (ge_stable _ _ _ Dphi Nd) as Lge. cbv beta in Lge.
  pose proof (wet_stable _ _ _ _ Ck W) as Lwet. pose proof (weight_stable_up _ _ _ (c_S dn) (Some w0) CS NS) as Lw. cbv beta in Lw. rewrite Hw in Lw.
  pose proof (vis_stable _ _ _ Cv Vu) as Lv.
  destruct (ge (p - c_P dn - den p * dg) 0) eqn:G.
  - rewrite fdiv_ok by assumption. simpl fbind. unfold dukvr. rewrite fdiv_ok by assumption. rewrite fdiv_ok by (apply pow_nonzero; assumption).
    simpl fbind. eexists _, _. split; [reflexivity|].
    exists (fun x => Dq * (c_Kr (c x) / c_vis (c x)) * ((x - c_P dn) - den x * dg) * area * den x). split.
    + generalize (filter_and _ _ (filter_and _ _ Lge Lwet) (filter_and _ _ Lw Lv)). apply filter_imp.
      intros x [[H1 H2] [H3 H4]]. unfold richards_flux. rewrite H2, H3. simpl fbind. rewrite CP. fold (den x).
      rewrite H1. rewrite fdiv_ok by assumption. reflexivity.
    + pose proof (flux_derivative (fun x => x - c_P dn) _ _ den p 1 _ _ _ Dq 0 dg area DP Ck Cv Dden Vu) as D.
      conclude D. field. assumption.
  - rewrite fdiv_ok by assumption. simpl fbind. unfold dukvr. rewrite fdiv_ok by assumption. rewrite fdiv_ok by (apply pow_nonzero; assumption).
    simpl fbind. eexists _, _. split; [reflexivity|].
    exists (fun x => Dq * (c_Kr dn / c_vis dn) * ((x - c_P dn) - den x * dg) * area * den x). split.
    + generalize (filter_and _ _ (filter_and _ _ Lge Lwet) (filter_and _ _ Lw Lv)). apply filter_imp.
      intros x [[H1 H2] [H3 H4]]. unfold richards_flux. rewrite H2, H3. simpl fbind. rewrite CP. fold (den x).
      rewrite H1. rewrite fdiv_ok by assumption. reflexivity.
    + pose proof (flux_derivative (fun x => x - c_P dn) _ _ den p 1 _ _ _ Dq 0 dg area DP (const_derivative (c_Kr dn) p) (const_derivative (c_vis dn) p) Dden Vd) as D.
      conclude D. field. assumption.
Qed.

Lemma richards_jacobian_dn_raw : forall (c : R -> cell) p up w Res J,
  consistent c p -> c_vis (c p) <> 0 -> c_vis up <> 0 ->
  gt (c_Kr up) eps || gt (c_Kr (c p)) eps = true ->
  c_S (c p) <> eps -> set_weight (c_S up) (c_S (c p)) (Some w0) = Some w ->
  c_P up - p - (w * c_rho up + (1 - w) * c_rho (c p)) * dg <> 0 ->
  exists a b, richards_jacobian dg (Some w0) (Some Dq) area up (c p) J = (Some a, Some b)
   /\ has_derivative (fun x => richards_flux dg (Some w0) (Some Dq) area up (c x) Res) p b.
Proof.
  intros c p up w Res J [CP [Cr [Cv [CS Ck]]]] Vd Vu W NS Hw Nd.
  unfold richards_jacobian. rewrite W, Hw. simpl fbind. rewrite CP.
  set (den := fun x => w * c_rho up + (1 - w) * c_rho (c x)).
  change (w * c_rho up + (1 - w) * c_rho (c p)) with (den p) in *.
  assert (Dden : is_derive den p ((1 - w) * c_drho (c p))) by (apply affine_derivative_r; exact Cr).
  assert (DP : is_derive (fun x => c_P up - x) p (-1)) by id_derive.
  assert (Dphi : is_derive (fun x => c_P up - x - den x * dg) p (-1 - (1 - w) * c_drho (c p) * dg)) by (apply phi_derivative; assumption).
  pose proof (ge_stable _ _ _ Dphi Nd) as Lge. cbv beta in Lge.
  assert (Lwet : locally p (fun x => gt (c_Kr up) eps || gt (c_Kr (c x)) eps = true)).
  { rewrite orb_comm in W. generalize (wet_stable _ _ _ _ Ck W). apply filter_imp. intros x Hx. rewrite orb_comm. exact Hx. }
  pose proof (weight_stable_dn _ _ _ (c_S up) (Some w0) CS NS) as Lw. cbv beta in Lw. rewrite Hw in Lw.
  pose proof (vis_stable _ _ _ Cv Vd) as Lv.
  destruct (ge (c_P up - p - den p * dg) 0) eqn:G.
  - rewrite fdiv_ok by assumption. simpl fbind. unfold dukvr. rewrite fdiv_ok by assumption. rewrite fdiv_ok by (apply pow_nonzero; assumption).
    simpl fbind. eexists _, _. split; [reflexivity|].
    exists (fun x => Dq * (c_Kr up / c_vis up) * ((c_P up - x) - den x * dg) * area * den x). split.
    + generalize (filter_and _ _ (filter_and _ _ Lge Lwet) (filter_and _ _ Lw Lv)). apply filter_imp.
      intros x [[H1 H2] [H3 H4]]. unfold richards_flux. rewrite H2, H3. simpl fbind. rewrite CP. fold (den x).
      rewrite H1. rewrite fdiv_ok by assumption. reflexivity.
    + pose proof (flux_derivative (fun x => c_P up - x) _ _ den p (-1) _ _ _ Dq 0 dg area DP (const_derivative (c_Kr up) p) (const_derivative (c_vis up) p) Dden Vu) as D.
      conclude D. field. assumption.
  - rewrite fdiv_ok by assumption. simpl fbind. unfold dukvr. rewrite fdiv_ok by assumption. rewrite fdiv_ok by (apply pow_nonzero; assumption).
    simpl fbind. eexists _, _. split; [reflexivity|].
    exists (fun x => Dq * (c_Kr (c x) / c_vis (c x)) * ((c_P up - x) - den x * dg) * area * den x). split.
    + generalize (filter_and _ _ (filter_and _ _ Lge Lwet) (filter_and _ _ Lw Lv)). apply filter_imp.
      intros x [[H1 H2] [H3 H4]]. unfold richards_flux. rewrite H2, H3. simpl fbind. rewrite CP. fold (den x).
      rewrite H1. rewrite fdiv_ok by assumption. reflexivity.
    + pose proof (flux_derivative (fun x => c_P up - x) _ _ den p (-1) _ _ _ Dq 0 dg area DP Ck Cv Dden Vd) as D.
      conclude D. field. assumption.
Qed.

(** Dirichlet faces, outflow. *)
Lemma bc_jacobian_raw : forall (c : R -> cell) p up w Res J,
  consistent c p -> c_vis (c p) <> 0 ->
  gt (b_Kr up) eps || gt (c_Kr (c p)) eps = true ->
  c_S (c p) <> eps -> set_weight (b_S up) (c_S (c p)) (Some w0) = Some w ->
  b_P up - p - (w * b_rho up + (1 - w) * c_rho (c p)) * dg < 0 ->
  (c_drho (c p) = 0 \/ dg = 0) ->
  exists b, bc_jacobian dg (Some w0) (Some Dq) area up (c p) J = Some b
   /\ has_derivative (fun x => bc_flux dg (Some w0) (Some Dq) area up (c x) Res) p b.
Proof.
  intros c p up w Res J [CP [Cr [Cv [CS Ck]]]] Vd W NS Hw Nd Z.
  unfold bc_jacobian. rewrite W, Hw. simpl fbind. rewrite CP.
  set (den := fun x => w * b_rho up + (1 - w) * c_rho (c x)).
  change (w * b_rho up + (1 - w) * c_rho (c p)) with (den p) in *.
  assert (Dden : is_derive den p ((1 - w) * c_drho (c p))) by (apply affine_derivative_r; exact Cr).
  assert (DP : is_derive (fun x => b_P up - x) p (-1)) by id_derive.
  assert (Dphi : is_derive (fun x => b_P up - x - den x * dg) p (-1 - (1 - w) * c_drho (c p) * dg)) by (apply phi_derivative; assumption).
  assert (Nd' : b_P up - p - den p * dg <> 0) by lra.
  pose proof (ge_stable _ _ _ Dphi Nd') as Lge. cbv beta in Lge.
  assert (Lwet : locally p (fun x => gt (b_Kr up) eps || gt (c_Kr (c x)) eps = true)).
  { rewrite orb_comm in W. generalize (wet_stable _ _ _ _ Ck W). apply filter_imp. intros x Hx. rewrite orb_comm. exact Hx. }
  pose proof (weight_stable_dn _ _ _ (b_S up) (Some w0) CS NS) as Lw. cbv beta in Lw. rewrite Hw in Lw.
  pose proof (vis_stable _ _ _ Cv Vd) as Lv.
  rewrite (proj2 (ge_false _ _) Nd) in *.
  rewrite fdiv_ok by assumption. simpl fbind. unfold dukvr. rewrite fdiv_ok by assumption. rewrite fdiv_ok by (apply pow_nonzero; assumption).
  simpl fbind. eexists. split; [reflexivity|].
  exists (fun x => Dq * (c_Kr (c x) / c_vis (c x)) * ((b_P up - x) - den x * dg) * area * den x). split.
  - generalize (filter_and _ _ (filter_and _ _ Lge Lwet) (filter_and _ _ Lw Lv)). apply filter_imp.
    intros x [[H1 H2] [H3 H4]]. unfold bc_flux. rewrite H2, H3. simpl fbind. rewrite CP. fold (den x).
    rewrite H1. rewrite fdiv_ok by assumption. reflexivity.
  - pose proof (flux_derivative (fun x => b_P up - x) _ _ den p (-1) _ _ _ Dq 0 dg area DP Ck Cv Dden Vd) as D.
    conclude D. destruct Z as [-> | ->]; field; assumption.
Qed.

(** Seepage faces. *)
Lemma seepage_jacobian_raw : forall Pref (c : R -> cell) p up w Res J,
  consistent c p -> c_vis (c p) <> 0 -> b_vis up <> 0 ->
  gt (b_Kr up) eps || gt (c_Kr (c p)) eps = true ->
  c_S (c p) <> eps -> set_weight (b_S up) (c_S (c p)) (Some w0) = Some w ->
  b_P up - p - (w * b_rho up + (1 - w) * c_rho (c p)) * dg <> 0 ->
  (c_drho (c p) = 0 \/ dg = 0) \/ (0 < b_P up - p - (w * b_rho up + (1 - w) * c_rho (c p)) * dg /\ b_P up <= Pref) ->
  exists b, seepage_jacobian Pref dg (Some w0) (Some Dq) area up (c p) J = Some b
   /\ has_derivative (fun x => seepage_flux Pref dg (Some w0) (Some Dq) area up (c x) Res) p b.
Proof.
  intros Pref c p up w Res J [CP [Cr [Cv [CS Ck]]]] Vd Vu W NS Hw Nd Z.
  unfold seepage_jacobian. rewrite W, Hw. simpl fbind. rewrite CP.
  set (den := fun x => w * b_rho up + (1 - w) * c_rho (c x)).
  change (w * b_rho up + (1 - w) * c_rho (c p)) with (den p) in *.
  assert (Dden : is_derive den p ((1 - w) * c_drho (c p))) by (apply affine_derivative_r; exact Cr).
  assert (DP : is_derive (fun x => b_P up - x) p (-1)) by id_derive.
  assert (Dphi : is_derive (fun x => b_P up - x - den x * dg) p (-1 - (1 - w) * c_drho (c p) * dg)) by (apply phi_derivative; assumption).
  pose proof (ge_stable _ _ _ Dphi Nd) as Lge. cbv beta in Lge.
  assert (Lwet : locally p (fun x => gt (b_Kr up) eps || gt (c_Kr (c x)) eps = true)).
  { rewrite orb_comm in W. generalize (wet_stable _ _ _ _ Ck W). apply filter_imp. intros x Hx. rewrite orb_comm. exact Hx. }
  pose proof (weight_stable_dn _ _ _ (b_S up) (Some w0) CS NS) as Lw. cbv beta in Lw. rewrite Hw in Lw.
  pose proof (vis_stable _ _ _ Cv Vd) as Lv.
  assert (G : ge (b_P up - p - den p * dg) 0 = gt (b_P up - p - den p * dg) 0).
  { unfold ge, gt. destruct (Rle_dec 0 _), (Rlt_dec 0 _); try reflexivity; lra. }
  destruct (ge (b_P up - p - den p * dg) 0) eqn:E.
  - assert (Lgt : locally p (fun x => gt (b_P up - x - den x * dg) 0 = true)).
    { apply (filter_imp (fun x => 0 < b_P up - x - den x * dg)); [intros x Hx; apply gt_true; exact Hx|].
      apply (derive_gt _ _ _ 0 Dphi). symmetry in G. apply gt_true in G. exact G. }
    rewrite fdiv_ok by assumption. simpl fbind. simpl andb. destruct (lt (b_P up - Pref) eps) eqn:B.
    + eexists. split; [reflexivity|]. exists (fun _ => 0). split.
      * generalize (filter_and _ _ (filter_and _ _ Lgt Lwet) (filter_and _ _ Lw Lv)). apply filter_imp.
        intros x [[H1 H2] [H3 H4]]. unfold seepage_flux. rewrite H2, H3. simpl fbind. rewrite CP. fold (den x).
        rewrite H1, B. simpl andb. cbv iota. rewrite (proj2 (ge_true 0 0)) by lra. rewrite fdiv_ok by assumption. simpl fbind. f_equal. ring.
      * pose proof (const_derivative 0 p) as D. conclude D. ring.
    + assert (Z' : c_drho (c p) = 0 \/ dg = 0).
      { destruct Z as [Z|[_ Z]]; [exact Z|]. apply lt_false in B. unfold eps in B. lra. }
      eexists. split; [reflexivity|].
      exists (fun x => Dq * (b_Kr up / b_vis up) * ((b_P up - x) - den x * dg) * area * den x). split.
      * generalize (filter_and _ _ (filter_and _ _ Lge Lwet) (filter_and _ _ Lw Lgt)). apply filter_imp.
        intros x [[H1 H2] [H3 H4]]. unfold seepage_flux. rewrite H2, H3. simpl fbind. rewrite CP. fold (den x).
        rewrite H4, B. simpl andb. cbv iota. rewrite H1. rewrite fdiv_ok by assumption. reflexivity.
      * pose proof (flux_derivative (fun x => b_P up - x) _ _ den p (-1) _ _ _ Dq 0 dg area DP (const_derivative (b_Kr up) p) (const_derivative (b_vis up) p) Dden Vu) as D.
        conclude D. destruct Z' as [-> | ->]; field; assumption.
  - assert (Lgt : locally p (fun x => gt (b_P up - x - den x * dg) 0 = false)).
    { apply (filter_imp (fun x => b_P up - x - den x * dg < 0)); [intros x Hx; apply gt_false; lra|].
      apply (derive_lt _ _ _ 0 Dphi). apply ge_false in E. exact E. }
    assert (Z' : c_drho (c p) = 0 \/ dg = 0).
    { destruct Z as [Z|[Z _]]; [exact Z|]. apply ge_false in E. lra. }
    rewrite fdiv_ok by assumption. simpl fbind. unfold dukvr. rewrite fdiv_ok by assumption. rewrite fdiv_ok by (apply pow_nonzero; assumption).
    simpl fbind. simpl andb. cbv iota. eexists. split; [reflexivity|].
    exists (fun x => Dq * (c_Kr (c x) / c_vis (c x)) * ((b_P up - x) - den x * dg) * area * den x). split.
    + generalize (filter_and _ _ (filter_and _ _ Lge Lwet) (filter_and _ _ Lw (filter_and _ _ Lv Lgt))). apply filter_imp.
      intros x [[H1 H2] [H3 [H4 H5]]]. unfold seepage_flux. rewrite H2, H3. simpl fbind. rewrite CP. fold (den x).
      rewrite H5. simpl andb. cbv iota. rewrite H1. rewrite fdiv_ok by assumption. reflexivity.
    + pose proof (flux_derivative (fun x => b_P up - x) _ _ den p (-1) _ _ _ Dq 0 dg area DP Ck Cv Dden Vd) as D.
      conclude D. destruct Z' as [-> | ->]; field; assumption.
Qed.
End Face.

Lemma product_derivative : forall (r S : R -> R) p dr dS k v dt, is_derive r p dr -> is_derive S p dS -> dt <> 0 ->
  is_derive (fun x => r x * k * S x * v / dt) p ((dr * k * S p + r p * 0 * S p + r p * k * dS) * (v / dt)).
Proof.
  intros r S p dr dS k v dt Cr CS N. auto_derive; [split; [eexists; exact Cr|split; [eexists; exact CS|exact I]]|].
  replace (Derive (fun x => r x) p) with dr by (symmetry; apply is_derive_unique; exact Cr).
  replace (Derive (fun x => S x) p) with dS by (symmetry; apply is_derive_unique; exact CS). field. exact N.
Qed.

Lemma accumulation_derivative_proof : forall (c : R -> cell) p k dt, consistent c p -> dt <> 0 ->
  exists a, JacobianAccumulation dt (c p) k = Some a /\ has_derivative (fun x => Accumulation dt (c x) k) p a.
Proof.
  intros c p k dt [CP [Cr [Cv [CS Ck]]]] N. unfold JacobianAccumulation, Accumulation. rewrite fdiv_ok by assumption. simpl fbind.
  eexists. split; [reflexivity|]. exists (fun x => c_rho (c x) * k_por k * c_S (c x) * k_vol k / dt). split.
  - apply filter_forall. intro x. apply fdiv_ok. exact N.
  - apply (product_derivative (fun x => c_rho (c x)) (fun x => c_S (c x))); assumption.
Qed.
