(** Proofs about the equations of state. *)
From Coq Require Import Reals Lra Psatz.
From Coquelicot Require Import Coquelicot.
From Verif Require Import Prelude Eos SpecEos CharCurvesProofs.
Local Open Scope R_scope.

Local Notation pref := 101325.

Definition expden (p : R) : R := 997.16 * exp (/ 100000000 * (p - pref)).

Lemma density_exponential_below p : p < pref -> density_exponential p = (Some 997.16, Some 0, Some 0).
Proof. intros H. unfold density_exponential. destruct (Rlt_dec p pref); [reflexivity|lra]. Qed.

Lemma density_exponential_above p : pref <= p ->
  density_exponential p = (Some (expden p), Some (/ 100000000 * expden p), Some (/ 100000000 * (/ 100000000 * expden p))).
Proof. intros H. unfold density_exponential. destruct (Rlt_dec p pref); [lra|reflexivity]. Qed.

Lemma expden_ref : expden pref = 997.16.
Proof. unfold expden. replace (/ 100000000 * (pref - pref)) with 0 by ring. rewrite exp_0. ring. Qed.

Lemma expden_pos p : 0 < expden p.
Proof. unfold expden. pose proof (exp_pos (/ 100000000 * (p - pref))). lra. Qed.

Lemma expden_le p q : p <= q -> expden p <= expden q.
Proof.
  intros H. unfold expden. apply Rmult_le_compat_l; [lra|]. apply exp_le. lra.
Qed.

Lemma is_derive_expden p : is_derive expden p (/ 100000000 * expden p).
Proof.
  unfold expden. auto_derive; [exact I|]. 
  unfold Rminus. set (E := exp _). clearbody E. ring.
Qed.

Theorem density_value ty p T S mem :
  pressure_only ty ->
  exists d, cell_value (EOSComputeWaterDensity ty p T S mem) = Some d /\ 0 < d.
Proof.
  intros [->| ->]; simpl.
  - exists 998; split; [reflexivity|lra].
  - destruct (Rlt_le_dec p pref).
    + rewrite density_exponential_below by assumption. exists 997.16; split; [reflexivity|lra].
    + rewrite density_exponential_above by assumption. eexists; split; [reflexivity|apply expden_pos].
Qed.

Theorem density_monotone ty p q T S mem d e :
  pressure_only ty -> p <= q ->
  cell_value (EOSComputeWaterDensity ty p T S mem) = Some d ->
  cell_value (EOSComputeWaterDensity ty q T S mem) = Some e -> d <= e.
Proof.
  intros [->| ->] Hpq; simpl.
  - intros H1 H2; injection H1 as <-; injection H2 as <-; lra.
  - destruct (Rlt_le_dec p pref), (Rlt_le_dec q pref); rewrite ?density_exponential_below, ?density_exponential_above by lra;
      simpl; intros H1 H2; injection H1 as <-; injection H2 as <-.
    + lra.
    + rewrite <- expden_ref. now apply expden_le.
    + lra.
    + now apply expden_le.
Qed.

Definition dval (p : R) : R := if Rlt_dec p pref then 997.16 else expden p.

Lemma cell_value_exponential p T S mem :
  cell_value (EOSComputeWaterDensity DensityExponential p T S mem) = Some (dval p).
Proof.
  simpl. unfold dval. destruct (Rlt_dec p pref).
  - now rewrite density_exponential_below.
  - rewrite density_exponential_above by lra. reflexivity.
Qed.

Lemma dval_max p : dval p = expden (Rmax p pref).
Proof.
  unfold dval. destruct (Rlt_dec p pref).
  - rewrite Rmax_right by lra. now rewrite expden_ref.
  - rewrite Rmax_left by lra. reflexivity.
Qed.

Lemma dval_continuous p : continuous dval p.
Proof.
  apply (continuous_ext (fun x => expden (Rmax x pref))); [intros; now rewrite dval_max|].
  apply (continuous_comp (fun x => Rmax x pref) expden).
  - apply (continuous_ext (fun x => (x + pref + Rabs (x - pref)) / 2)).
    { intros x. unfold Rmax. destruct (Rle_dec x pref).
      - rewrite Rabs_left1 by lra. simpl. lra.
      - rewrite Rabs_right by lra. simpl. lra. }
    apply (continuous_scal_l (fun x => x + pref + Rabs (x - pref)) (/2)).
    apply (continuous_plus (fun x => x + pref) (fun x => Rabs (x - pref))).
    + apply (continuous_plus (fun x => x) (fun _ => pref)); [apply continuous_id|apply continuous_const].
    + apply (continuous_comp (fun x => x - pref) Rabs).
      * apply (continuous_minus (fun x => x) (fun _ => pref)); [apply continuous_id|apply continuous_const].
      * apply continuous_Rabs.
  - apply @ex_derive_continuous. eexists. apply is_derive_expden.
Qed.

Theorem density_continuous ty T S mem :
  pressure_only ty ->
  exists g : R -> R, (forall p, cell_value (EOSComputeWaterDensity ty p T S mem) = Some (g p)) /\
                     forall p, continuous g p.
Proof.
  intros [->| ->].
  - exists (fun _ => 998). split; [reflexivity|]. intros; apply continuous_const.
  - exists dval. split; [intros; apply cell_value_exponential|apply dval_continuous].
Qed.

Theorem density_derivatives ty p T S mem :
  pressure_only ty -> p <> pref ->
  exists d1 d2,
    cell_first (EOSComputeWaterDensity ty p T S mem) = Some d1 /\
    cell_second (EOSComputeWaterDensity ty p T S mem) = Some d2 /\
    has_derivative (fun q => cell_value (EOSComputeWaterDensity ty q T S mem)) p d1 /\
    has_derivative (fun q => cell_first (EOSComputeWaterDensity ty q T S mem)) p d2.
Proof.
  intros [->| ->] Hp; simpl.
  - exists 0, 0. repeat split.
    + exists (fun _ => 998). split; [now apply filter_forall|]. apply @is_derive_const.
    + exists (fun _ => 0). split; [now apply filter_forall|]. apply @is_derive_const.
  - destruct (Rlt_le_dec p pref).
    + rewrite density_exponential_below by assumption. exists 0, 0. repeat split.
      * exists (fun _ => 997.16). split; [|apply @is_derive_const].
        apply (filter_imp (fun q => q < pref)); [|now apply locally_lt].
        intros q Hq. now rewrite density_exponential_below.
      * exists (fun _ => 0). split; [|apply @is_derive_const].
        apply (filter_imp (fun q => q < pref)); [|now apply locally_lt].
        intros q Hq. now rewrite density_exponential_below.
    + rewrite density_exponential_above by assumption. eexists; eexists. repeat split.
      * exists expden. split; [|apply is_derive_expden].
        apply (filter_imp (fun q => pref < q)); [|apply locally_gt; lra].
        intros q Hq. now rewrite density_exponential_above by lra.
      * exists (fun q => / 100000000 * expden q). split; [|].
        { apply (filter_imp (fun q => pref < q)); [|apply locally_gt; lra].
          intros q Hq. now rewrite density_exponential_above by lra. }
        apply (is_derive_scal expden p). apply is_derive_expden.
Qed.

Theorem density_derivative_at_kink T S mem :
  exists d1 d2,
    cell_first (EOSComputeWaterDensity DensityExponential pref T S mem) = Some d1 /\
    cell_second (EOSComputeWaterDensity DensityExponential pref T S mem) = Some d2 /\
    has_right_derivative (fun q => cell_value (EOSComputeWaterDensity DensityExponential q T S mem)) pref d1 /\
    has_right_derivative (fun q => cell_first (EOSComputeWaterDensity DensityExponential q T S mem)) pref d2.
Proof.
  simpl. rewrite density_exponential_above by lra. eexists; eexists. repeat split.
  - exists expden. split; [|apply is_derive_expden].
    intros q Hq. now rewrite density_exponential_above by lra.
  - exists (fun q => / 100000000 * expden q). split.
    + intros q Hq. now rewrite density_exponential_above by lra.
    + apply (is_derive_scal expden pref). apply is_derive_expden.
Qed.

Theorem outputs_defined p T S :
  (forall ty, pressure_only ty -> defines_outputs (EOSComputeWaterDensity ty p T S)) /\
  defines_outputs (EOSComputeWaterViscosity ViscosityConstant p T S) /\
  defines_outputs (EOSComputeWaterEnthalpy EnthalpyConstant T p).
Proof. split; [intros ty [->| ->]|split]; intros ? ?; reflexivity. Qed.

Theorem fraction_range Psi mw den :
  0 <= Psi -> 0 <= mw ->
  exists f, EOSComputeSalinityFraction Psi mw den = Some f /\ 0 <= f < 1 /\ (f = 0 <-> Psi = 0 \/ mw = 0).
Proof.
  intros HP Hm. unfold EOSComputeSalinityFraction.
  pose proof (Rmult_le_pos _ _ HP Hm) as Hx. set (x := Psi * mw) in *.
  rewrite fdiv_ok by lra. exists (x / (x + 999)). split; [reflexivity|]. split; [split|].
  - apply Rle_mult_inv_pos; lra.
  - apply Rmult_lt_reg_r with (x + 999); [lra|]. unfold Rdiv. rewrite Rmult_assoc, Rinv_l by lra. lra.
  - split.
    + intros H. assert (x = 0).
      { apply (Rmult_eq_compat_r (x + 999)) in H. unfold Rdiv in H. rewrite Rmult_assoc, Rinv_l in H by lra. lra. }
      unfold x in H0. now apply Rmult_integral.
    + intros H. assert (x = 0) as -> by (unfold x; destruct H as [->| ->]; ring). lra.
Qed.

Theorem fraction_increasing Psi1 Psi2 mw den1 den2 f1 f2 :
  0 <= Psi1 -> Psi1 < Psi2 -> 0 < mw ->
  EOSComputeSalinityFraction Psi1 mw den1 = Some f1 ->
  EOSComputeSalinityFraction Psi2 mw den2 = Some f2 -> f1 < f2.
Proof.
  intros HP H12 Hm. unfold EOSComputeSalinityFraction.
  pose proof (Rmult_le_pos _ _ HP (Rlt_le _ _ Hm)) as Hx.
  pose proof (Rmult_lt_compat_r _ _ _ Hm H12) as Hxy.
  set (x := Psi1 * mw) in *. set (y := Psi2 * mw) in *.
  rewrite !fdiv_ok by lra. intros E1 E2; injection E1 as <-; injection E2 as <-.
  apply Rmult_lt_reg_r with ((x + 999) * (y + 999)); [nra|].
  replace (x / (x + 999) * ((x + 999) * (y + 999))) with (x * (y + 999)) by (field; lra).
  replace (y / (y + 999) * ((x + 999) * (y + 999))) with (y * (x + 999)) by (field; lra).
  nra.
Qed.

(** ** Batzle and Wang *)

Lemma fpow_nonneg x y : 0 <= x -> 0 < y -> exists r, fpow x y = Some r /\ 0 <= r.
Proof.
  intros [Hx|<-] Hy.
  - rewrite fpow_pos by assumption. eexists; split; [reflexivity|].
    apply Rlt_le, Rpower_pos.
  - rewrite fpow_zero by assumption. exists 0; split; [reflexivity|lra].
Qed.

Theorem bw_viscosity_positive T S p mem :
  0 <= T -> 0 <= S -> exists v, cell_value (EOSComputeWaterViscosity ViscosityBatzleWang p T S mem) = Some v /\ 0 < v.
Proof.
  intros HT HS. destruct mem as [[m0 m1] m2]. simpl. unfold viscosity_batzle_wang.
  destruct (fpow_nonneg S 0.8 HS ltac:(lra)) as (s8 & -> & _).
  destruct (fpow_nonneg T 0.8 HT ltac:(lra)) as (t8 & -> & _). simpl.
  eexists; split; [reflexivity|].
  match goal with |- context [exp ?e] => pose proof (exp_pos e) as He; set (E := exp e) in * end.
  clearbody E.
  assert (0 <= S * (S * (S * 1))) by nra.
  assert (0 <= (1.65 + 91.9 * (S * (S * (S * 1)))) * E) by (apply Rmult_le_pos; lra).
  lra.
Qed.

(** Fresh water: the sign of 0.045 makes the exponent positive. *)
Lemma fpow_lt T1 T2 : 0 <= T1 -> T1 < T2 ->
  exists a b, fpow T1 0.8 = Some a /\ fpow T2 0.8 = Some b /\ a < b.
Proof.
  intros H1 H2. rewrite (fpow_pos T2) by lra. destruct H1 as [H1|<-].
  - rewrite fpow_pos by assumption. do 2 eexists; repeat split.
    unfold Rpower. apply exp_increasing. apply Rmult_lt_compat_l; [lra|]. now apply ln_increasing.
  - rewrite fpow_zero by lra. do 2 eexists; repeat split. apply Rpower_pos.
Qed.

Theorem bw_fresh_viscosity_increases p T1 T2 mem v1 v2 :
  0 <= T1 -> T1 < T2 ->
  cell_value (EOSComputeWaterViscosity ViscosityBatzleWang p T1 0 mem) = Some v1 ->
  cell_value (EOSComputeWaterViscosity ViscosityBatzleWang p T2 0 mem) = Some v2 -> v1 < v2.
Proof.
  intros H1 H2. destruct mem as [[m0 m1] m2]. simpl. unfold viscosity_batzle_wang.
  rewrite fpow_zero by lra.
  destruct (fpow_lt T1 T2 H1 H2) as (a & b & -> & -> & Hab). simpl.
  intros E1 E2; injection E1 as <-; injection E2 as <-.
  assert (H : exp ((- 0.42 * ((0 - 0.17) * ((0 - 0.17) * 1)) + 0.045) * a)
              < exp ((- 0.42 * ((0 - 0.17) * ((0 - 0.17) * 1)) + 0.045) * b)).
  { apply exp_increasing. apply Rmult_lt_compat_l; lra. }
  lra.
Qed.

Theorem bw_brine_denser P T S :
  0 <= P <= 100000000 -> 0 <= T <= 100 -> 0 < S <= 0.3 ->
  density_batzle_wang P T 0 < density_batzle_wang P T S.
Proof.
  intros HP HT HS. unfold density_batzle_wang.
  set (x := P * / 1000000).
  assert (Hx : 0 <= x <= 100) by (unfold x; lra).
  replace (300 * P * / 1000000) with (300 * x) by (unfold x; ring).
  replace (2400 * P * / 1000000) with (2400 * x) by (unfold x; ring).
  replace (13 * P * / 1000000) with (13 * x) by (unfold x; ring).
  replace (47 * P * / 1000000) with (47 * x) by (unfold x; ring).
  clearbody x.
  assert (Hin : 0 < 0.668 + 0.44 * S + / 1000000 * (300 * x - 2400 * x * S
       + T * (80 * 3 * T - 3300 * S - 13 * x + 47 * x * S))).
  { assert (0 <= x * S <= 30) by nra.
    assert (- 990 - 1300 <= 80 * 3 * T - 3300 * S - 13 * x + 47 * x * S) by nra.
    assert (- 229000 <= T * (80 * 3 * T - 3300 * S - 13 * x + 47 * x * S)) by nra.
    lra. }
  assert (0 < S * (0.668 + 0.44 * S + / 1000000 * (300 * x - 2400 * x * S
       + T * (80 * 3 * T - 3300 * S - 13 * x + 47 * x * S)))) by (apply Rmult_lt_0_compat; lra).
  lra.
Qed.

Lemma density_law : forall p T S mem, cell_value (EOSComputeWaterDensity DensityExponential p T S mem) = Some (compressed_density p)
  /\ cell_value (EOSComputeWaterDensity DensityConstant p T S mem) = Some 998.
Proof.
  intros p T S mem. split; [|reflexivity]. simpl. unfold density_exponential, compressed_density. destruct (Rlt_dec p 101325); simpl.
  - rewrite Rmax_left by lra. rewrite Rmult_0_r, exp_0, Rmult_1_r. reflexivity.
  - rewrite Rmax_right by lra. reflexivity.
Qed.

Lemma unknown_refused : forall p T S mem, EOSComputeWaterDensity DensityOther p T S mem = Err
  /\ EOSComputeWaterViscosity ViscosityOther p T S mem = Err /\ EOSComputeWaterEnthalpy EnthalpyOther T p mem = Err.
Proof. intros. repeat split. Qed.

Lemma constant_outputs : forall p T S mem, exists v h dv d2v dhp dht,
  EOSComputeWaterViscosity ViscosityConstant p T S mem = Ok (Some v, Some dv, Some d2v) /\ 0 < v /\
  EOSComputeWaterEnthalpy EnthalpyConstant T p mem = Ok (Some h, Some dhp, Some dht) /\
  has_derivative (fun q => cell_value (EOSComputeWaterViscosity ViscosityConstant q T S mem)) p dv /\
  has_derivative (fun q => cell_first (EOSComputeWaterViscosity ViscosityConstant q T S mem)) p d2v /\
  has_derivative (fun q => cell_value (EOSComputeWaterEnthalpy EnthalpyConstant T q mem)) p dhp /\
  has_derivative (fun t => cell_value (EOSComputeWaterEnthalpy EnthalpyConstant t p mem)) T dht.
Proof.
  assert (K : forall (v : R) f x, (forall q : R, f q = Some v) -> has_derivative f x 0).
  { intros v f x H. exists (fun _ => v). split; [apply filter_forall; exact H|apply (is_derive_const v)]. }
  intros. exists 0.000994, 1.8890, 0, 0, 0, 0. split; [reflexivity|]. split; [lra|]. split; [reflexivity|].
  split; [|split; [|split]]; eapply K; reflexivity.
Qed.

Lemma bw_fresh_density : forall P T, density_batzle_wang P T 0 = 1000 * published_fresh_density (P / 1000000) T.
Proof. intros. unfold density_batzle_wang, density_batzle_wang_pw, published_fresh_density. field. Qed.

Lemma bw_viscosity_cold : forall p S mem, 0 <= S ->
  exists s8, fpow S 0.8 = Some s8 /\
  cell_value (EOSComputeWaterViscosity ViscosityBatzleWang p 0 S mem) = Some (0.001 * published_viscosity s8 0 S).
Proof.
  intros p S [[m1 m2] m3] HS. simpl. unfold viscosity_batzle_wang.
  assert (H : exists s8, fpow S 0.8 = Some s8) by (unfold fpow; destruct (Rlt_dec 0 S); [eexists; reflexivity|]; replace S with 0 by lra; destruct (Req_EM_T 0 0); [|congruence]; destruct (Rlt_dec 0 0.8); [|lra]; eexists; reflexivity).
  destruct H as [s8 E]. exists s8. split; [exact E|]. rewrite E. cbn [fbind].
  assert (E0 : fpow 0 0.8 = Some 0) by (unfold fpow; destruct (Rlt_dec 0 0); [lra|]; destruct (Req_EM_T 0 0); [|congruence]; destruct (Rlt_dec 0 0.8); [reflexivity|lra]).
  rewrite E0. cbn [fbind]. unfold published_viscosity. rewrite !Rmult_0_r. f_equal. ring.
Qed.
