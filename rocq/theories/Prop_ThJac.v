(** C87: the Jacobian of the water and heat mode. *)
From Coq Require Import Reals ZArith List Bool Arith Lia Lra.
From Coquelicot Require Import Coquelicot.
From Verif Require Import Prelude Arrays SpecFvtpf Mpfao MpfaoTs SpecMpfaoTs Transport SpecTransport TransportExamples ThJac SpecThJac ThJacProofs ThJacExamples ThJacTemp.
From Verif Require Fvtpf.
Import ListNotations.
Local Open Scope R_scope.

(** The columns of the pressure: for a cell away from the boundary, and without
    gravity, the entries for the pressure of any cell are the derivatives of the
    residuals of water and energy up to the values the code drops (below 2^-52 for
    every sub-face).  Missing: cells at the boundary, gravity and the temperature,
    for which the entries are wrong (below); sub-faces without flow, where the
    residual has no derivative. *)
Theorem C87_pressure_partial : forall m n N nb nbf cs bs hs hb ts gz TT GD T Tq junk k c e p TP t,
  good_mesh m n N nb -> good_state m N nb (upd cs k (c p)) bs (TP p) TT -> (forall x, length (TP x) = (4 * length (faces m))%nat) ->
  good_vertices m GD -> allocated m T -> allocated m Tq -> length nbf = length (verts m) -> length hs = N -> length hb = nb -> length ts = N -> length gz = N ->
  cells_exist m N -> (forall g, In g gz -> g = 0) -> (k < N)%nat -> nth_error ts k = Some t ->
  consistent c p -> heat_by_pressure e p (t_dh_dP t) -> product_of m T k TP -> flowing m (TP p) ->
  forall shift b0 du u, (2 * N <= length du)%nat -> (2 * N <= length u)%nat -> (forall i, (i < N)%nat -> local_cell m i = true <-> (i < n)%nat) ->
  exists B, IJacobian_TH m nbf (upd cs k (c p)) bs (upd hs k (e p)) hb ts gz (TP p) T Tq junk shift (upd du (2 * k) (shift * p + b0)) u = Ok B
  /\ forall i, (i < n)%nat -> (n <= N)%nat -> inside m i ->
     let residual a x := component (IFunction_TH m (upd cs k (c x)) bs (upd hs k (e x)) hb (TP x) TT (upd du (2 * k) (shift * x + b0)) u n) (2 * i + a) in
     near_derivative B (2 * i) (2 * k) (residual 0%nat) p (/ 2 ^ 52 * subfaces_of m i)
     /\ near_derivative B (2 * i + 1) (2 * k) (residual 1%nat) p (/ 2 ^ 52 * subfaces_of m i).
Proof.
  intros m n N nb nbf cs bs hs hb ts gz TT GD T Tq junk k c e p TP t GM GS LT GV AT AQ Ln Lh Lhb Lt Lg CE NG Hk Et CC CH PT FL.
  exact (pressure_columns m n N nb nbf cs bs hs hb ts gz TT GD T Tq junk k c e p TP t GM GS LT GV AT AQ Ln Lh Lhb Lt Lg CE NG Hk Et CC CH PT FL).
Qed.
Print Assumptions C87_pressure_partial.

(** The storage terms: the Jacobian is that of the fluxes plus, for every owned cell,
    the derivatives of the rates of its water and energy by its pressure and its
    temperature, [shift] being the derivative of the rate of each by itself. *)
Theorem C87_storage : forall m n N nb nbf cs bs hs hb ts gz TP TT GD T Tq junk,
  good_mesh m n N nb -> good_state m N nb cs bs TP TT -> good_vertices m GD -> allocated m T -> allocated m Tq ->
  length nbf = length (verts m) -> length hs = N -> length hb = nb -> length ts = N -> length gz = N -> cells_exist m N ->
  forall shift du u, (2 * N <= length du)%nat -> (2 * N <= length u)%nat ->
  exists B0 B Q, IJacobian_Vertices_TH m nbf cs bs hs hb ts gz TP T Tq junk [] = Ok B0 /\ IJacobian_TH m nbf cs bs hs hb ts gz TP T Tq junk shift du u = Ok B
  /\ (forall i j a b, (a < 2)%nat -> (b < 2)%nat -> exists x, Fvtpf.entry B0 (Z.of_nat (2 * i + a)) (Z.of_nat (2 * j + b)) = Some x
        /\ Fvtpf.entry B (Z.of_nat (2 * i + a)) (Z.of_nat (2 * j + b)) = Some (x + if (i =? j)%nat then Q i a b else 0))
  /\ forall i k, nth_error (rocks m) i = Some k ->
     (k_local k = false -> forall a b, Q i a b = 0) /\
     (k_local k = true ->
      (forall c e p dh b0, nth_error cs i = Some (c p) -> nth_error hs i = Some (e p) -> consistent c p -> heat_by_pressure e p dh -> nth (2 * i) du 0 = shift * p + b0 ->
         is_derive (fun x => water_rate (c x) (e x) k (shift * x + b0) (nth (2 * i + 1) du 0)) p (Q i 0%nat 0%nat)
         /\ is_derive (fun x => energy_rate (c x) (e x) k (shift * x + b0) (nth (2 * i + 1) du 0)) p (Q i 1%nat 0%nat))
      /\ (forall c e t b0, nth_error cs i = Some (c t) -> nth_error hs i = Some (e t) -> water_by_temperature c e t -> heat_by_temperature e t ->
           nth (2 * i + 1) u 0 = t -> nth (2 * i + 1) du 0 = shift * t + b0 ->
         is_derive (fun x => water_rate (c x) (e x) k (nth (2 * i) du 0) (shift * x + b0)) t (Q i 0%nat 1%nat)
         /\ is_derive (fun x => energy_rate (c x) (e x) k (nth (2 * i) du 0) (shift * x + b0)) t (Q i 1%nat 1%nat))).
Proof. exact storage_blocks. Qed.
Print Assumptions C87_storage.

(** What the temperature columns are, for one sub-face between two cells: minus the
    extra term below, the entries of water and energy for the temperature of a cell are the derivatives of the two
    fluxes by it (by density, viscosity, relative permeability, enthalpy and conduction),
    up to the values the code drops.  Missing: sub-faces without flow or conduction, the
    boundary; the sum over the sub-faces is not stated. *)
Theorem C87_temperature_partial : forall cs bs hs hb ts TP TT k a zup zdn c e t T tp tq b0,
  length hs = length cs -> length ts = length cs -> (0 <= zup < Z.of_nat (length cs))%Z -> (0 <= zdn < Z.of_nat (length cs))%Z -> zup <> zdn ->
  (k < length cs)%nat -> nth_error ts k = Some t -> (forall c, In c cs -> c_vis c <> 0) ->
  nth_error TP a = Some tp -> / 2 ^ 52 < Rabs tp -> (forall x, nth_error (TT x) a = Some (b0 + tq * x)) -> / 2 ^ 52 < Rabs (b0 + tq * T) ->
  flux_by_temperature c e (t_dvis_dT t) (t_dh_dT t) T ->
  forall up dn, at_side (upd cs k (c T)) bs zup up -> at_side (upd cs k (c T)) bs zdn dn ->
  let hs' := upd hs k (e T) in
  let zs := if Rlt_dec tp 0 then zup else zdn in
  let flux first x := fluxes first (th_flux (upd cs k (c x)) bs (upd hs k (e x)) hb TP (TT x) zup zdn a) in
  exists dw de, has_derivative (flux true) T dw /\ has_derivative (flux false) T de /\
  forall d1 d2 tk g, exists w dup ddn x y,
    upwind_at (upd cs k (c T)) bs hs' hb ts zs = Ok w
    /\ half_of (map e_drho_dT hs') zup = Ok dup /\ half_of (map e_drho_dT hs') zdn = Ok ddn
    /\ (let '(_, _, qa, qb) := th_block zup zdn tp (mean_density up dn) w (d1, d2, dup, ddn) k tk tq g in qa = Some x /\ qb = Some y)
    /\ let extra := coeff ((zup =? Z.of_nat k)%Z || (zdn =? Z.of_nat k)%Z) * (mean_density up dn * mobility (if Rlt_dec tp 0 then up else dn) * tk * (1 + e_drho_dT (e T) / 2 * g)) in
       Rabs (x - (dw - extra)) <= / 2 ^ 52 /\ Rabs (y - (de - extra * side_value (map e_h hs') hb zs)) <= / 2 ^ 52.
Proof.
  intros cs bs hs hb ts TP TT k a zup zdn c e t T tp tq b0 Lh Lt Zu Zd ND Hk Et Vc HTP Fl HTT Ht FT.
  exact (temperature_column cs bs hs hb ts TP TT k a zup zdn c e t T tp tq b0 Lh Lt Zu Zd ND Hk Et Vc HTP Fl HTT Ht FT).
Qed.
Print Assumptions C87_temperature_partial.

(** The temperature columns are wrong: the term [T * (1.0 + dden_dT * gz)] that belongs
    to the pressure is used for the temperature as well.  Here nothing depends on the
    temperature of cell 0, but the entry of its water equation for it is 1. *)
Theorem C87_temperature_refuted : exists B,
  IJacobian_TH pair_mesh [0%nat] [fluid 1; fluid 1] [] [cold; cold] [] [steady; steady] [0; 0] [-1; 0; 0; 0] pair_T no_T (fun _ _ => 0) 0 [0; 0; 0; 0] [0; 20; 0; 0] = Ok B
  /\ Fvtpf.entry B 0 1 = Some 1
  /\ has_derivative (fun t => component (IFunction_TH pair_mesh [fluid 1; fluid 1] [] [cold; cold] [] [-1; 0; 0; 0] [0; 0; 0; 0] [0; 0; 0; 0] [0; t; 0; 0] 2) 0) 20 0.
Proof. exact temperature_witness. Qed.
Print Assumptions C87_temperature_refuted.

(** Fluxes through the boundary are left out: a boundary face gets its cell as both
    sides, so that the block is added and subtracted in the same row (and vertices with
    one cell are skipped).  Here water leaves cell 0 through an inner face and through
    the boundary; the derivative of its residual by its pressure is 2, the entry 1. *)
Theorem C87_boundary_refuted : good_mesh edge_mesh 2 2 2 /\ product_of edge_mesh edge_T 0 edge_TP /\ exists B,
  IJacobian_TH edge_mesh [2%nat] [fluid 1; fluid 1] [brim; brim] [cold; cold] [0; 0] [steady; steady] [0; 0] (edge_TP 1) edge_T no_edge_T (fun _ _ => 0) 0 [0; 0; 0; 0] [0; 0; 0; 0] = Ok B
  /\ Fvtpf.entry B 0 0 = Some 1
  /\ has_derivative (fun x => component (IFunction_TH edge_mesh [fluid 1; fluid 1] [brim; brim] [cold; cold] [0; 0] (edge_TP x) edge_0 [0; 0; 0; 0] [0; 0; 0; 0] 2) 0) 1 2.
Proof. split; [exact edge_good|]. split; [exact edge_product|]. destruct edge_entry as [B [E H]]. exists B. split; [exact E|]. split; [exact H|exact edge_derive]. Qed.
Print Assumptions C87_boundary_refuted.

(** With gravity the pressure columns have the factor [1 + dden_dP * gz], but the
    residual of this mode has no gravity term.  Here the derivative is 2, the entry 2.75. *)
Theorem C87_gravity_refuted : exists B,
  IJacobian_TH pair_mesh [0%nat] [soft 1; fluid 1] [] [cold; cold] [] [steady; steady] [1; 0] [-1; 0; 0; 0] pair_T no_T (fun _ _ => 0) 0 [0; 0; 0; 0] [0; 20; 0; 0] = Ok B
  /\ Fvtpf.entry B 0 0 = Some 2.75
  /\ has_derivative (fun x => component (IFunction_TH pair_mesh [soft x; fluid 1] [] [cold; cold] [] [- x; 0; 0; 0] [0; 0; 0; 0] [0; 0; 0; 0] [0; 20; 0; 0] 2) 0) 1 2.
Proof. destruct gravity_witness as [B [E H]]. exists B. split; [exact E|]. split; [exact H|exact soft_derive]. Qed.
Print Assumptions C87_gravity_refuted.

(** Without gravity, the entry of the same problem is 2. *)
Example C87_example : exists B,
  IJacobian_TH pair_mesh [0%nat] [soft 1; fluid 1] [] [cold; cold] [] [steady; steady] [0; 0] [-1; 0; 0; 0] pair_T no_T (fun _ _ => 0) 0 [0; 0; 0; 0] [0; 20; 0; 0] = Ok B
  /\ Fvtpf.entry B 0 0 = Some 2.
Proof. destruct (pair_jac (soft 1) 0 20) as [B [E [H _]]]; try reflexivity. exists B. split; [exact E|]. rewrite H. f_equal. simpl. rewrite chop_neg; lra. Qed.
(** [C87_pressure_partial] applies to it; also with storage. *)
Example C87_pressure_example : exists B,
  IJacobian_TH pair_mesh [0%nat] [soft 1; fluid 1] [] [warm; warm] [] [steady; steady] [0; 0] [- (1); 0; 0; 0] pair_T no_T (fun _ _ => 0) 3 [3 * 1 + -2; 0; 0; 0] [0; 20; 0; 0] = Ok B
  /\ near_derivative B 1 0 (fun x => component (IFunction_TH pair_mesh [soft x; fluid 1] [] [warm; warm] [] [- x; 0; 0; 0] [0; 0; 0; 0] [3 * x + -2; 0; 0; 0] [0; 20; 0; 0] 2) 1) 1 (/ 2 ^ 52 * subfaces_of pair_mesh 0).
Proof.
  destruct (C87_pressure_partial pair_mesh 2 2 0 [0%nat] [soft 1; fluid 1] [] [warm; warm] [] [steady; steady] [0; 0] [0; 0; 0; 0] [0; 0; 0; 0] pair_T no_T (fun _ _ => 0)
    0 soft (fun _ => warm) 1 (fun x => [- x; 0; 0; 0]) steady pair_good soft_state (fun _ => eq_refl) pair_vertices (pair_alloc [-1; 1] (le_n 2)) (pair_alloc [0; 0] (le_n 2))
    eq_refl eq_refl eq_refl eq_refl eq_refl pair_exist) with (shift := 3) (b0 := -2) (du := [0; 0; 0; 0]) (u := [0; 20; 0; 0]) as [B [E H]].
  - intros g [<-|[<-|[]]]; reflexivity.
  - lia.
  - reflexivity.
  - apply soft_consistent.
  - apply warm_consistent.
  - exact pair_product.
  - exact pair_flowing.
  - simpl; lia.
  - simpl; lia.
  - exact pair_owned.
  - exists B. split; [exact E|]. exact (proj2 (H 0%nat ltac:(lia) ltac:(lia) (pair_inside 0%nat))).
Qed.
(** [C87_temperature_partial] for a fluid whose density and viscosity fall with the
    temperature, and with conduction. *)
Definition thin (x : R) : cell := mkCell (2 - x) 1 0 (3 - x) 0 1 0 0 1 0.
Definition hot (x : R) : heat := mkHeat (4 * x) 0 0 0 (-1) 0 0 0 0.
Example C87_temperature_example : exists dw de w x y,
  has_derivative (fun x => fluxes true (th_flux [thin x; fluid 1] [] [hot x; cold] [] [-1] [2 + 5 * x] 0 1 0)) 1 dw
  /\ has_derivative (fun x => fluxes false (th_flux [thin x; fluid 1] [] [hot x; cold] [] [-1] [2 + 5 * x] 0 1 0)) 1 de
  /\ upwind_at [thin 1; fluid 1] [] [hot 1; cold] [] [mkThermal (-1) 0 4; steady] 0 = Ok w
  /\ (let '(_, _, qa, qb) := th_block 0 1 (-1) 1 w (0, 0, -0.5, 0) 0 7 5 0 in qa = Some x /\ qb = Some y)
  /\ Rabs (x - (dw - 3.5)) <= / 2 ^ 52 /\ Rabs (y - (de - 14)) <= / 2 ^ 52.
Proof.
  destruct (C87_temperature_partial [fluid 1; fluid 1] [] [cold; cold] [] [mkThermal (-1) 0 4; steady] [-1] (fun x => [2 + 5 * x]) 0 0 0 1 thin hot (mkThermal (-1) 0 4) 1 (-1) 5 2)
    with (up := (inl (thin 1) : side)) (dn := (inl (fluid 1) : side)) as [dw [de [H1 [H2 H3]]]]; try reflexivity; try (simpl; lia).
  - intros c0 [<-|[<-|[]]]; simpl; lra.
  - rewrite Rabs_left by lra. pose proof tiny. lra.
  - rewrite Rabs_right by lra. pose proof tiny. lra.
  - unfold flux_by_temperature, thin, hot. cbn. split; [auto_derive; [exact I|ring]|]. split; [auto_derive; [exact I|ring]|]. split; [lra|]. split; [|auto_derive; [exact I|ring]].
    rewrite Rmult_0_l. apply (is_derive_const (V := R_NormedModule)).
  - split; [lia|reflexivity].
  - split; [lia|reflexivity].
  - destruct (H3 0 0 7 0) as [w [dup [ddn [x [y [E1 [E2 [E3 [E4 E5]]]]]]]]]. clear H3.
    assert (M : mean_density (inl (thin 1)) (inl (fluid 1)) = 1) by (unfold mean_density; simpl; lra). rewrite M in *. cbv zeta in *.
    destruct (Rlt_dec (-1) 0) as [L|L]; [|lra].
    exists dw, de, w, x, y. split; [exact H1|]. split; [exact H2|]. split; [exact E1|].
    assert (D1 : dup = -0.5) by (unfold half_of in E2; cbn in E2; injection E2 as <-; lra).
    assert (D2 : ddn = 0) by (unfold half_of in E3; cbn in E3; injection E3 as <-; lra). rewrite D1, D2 in E4. split; [exact E4|].
    destruct E5 as [E5 E6]. unfold side_value, mobility in *. cbn in E5, E6. split.
    + match type of E5 with Rabs (_ - (_ - ?z)) <= _ => replace z with 3.5 in E5 by lra end. exact E5.
    + match type of E6 with Rabs (_ - (_ - ?z)) <= _ => replace z with 14 in E6 by lra end. exact E6.
Qed.
