(** C45, C57, C58: water and salt, water and heat. *)
From Coq Require Import Reals ZArith List Bool Arith Lia Lra.
From Coquelicot Require Import Coquelicot.
From Verif Require Import Prelude Arrays SpecFvtpf FvtpfSumProofs Mpfao MpfaoTs SpecMpfaoTs MpfaoTsProofs Transport SpecTransport TransportProofs TransportBounds TransportExamples.
Import ListNotations.
Local Open Scope R_scope.

(** ** C45 *)

(** Both equations of a time step: net outflow, change of the amount stored, source.
    Summed over the owned cells only the fluxes through their boundary remain. *)
Theorem C45_balance : forall m n N nb cs bs TP TPsi GD qw qs dtime soln src prev,
  good_mesh m n N nb -> good_state m N nb cs bs TP GD -> length TPsi = (4 * length (faces m))%nat ->
  on_faces m cs bs (saline_water TP GD) qw -> on_faces m cs bs (saline_salt TP TPsi) qs ->
  dtime <> 0 -> length soln = (2 * N)%nat -> length src = N -> length prev = (2 * n)%nat ->
  exists r, SNESFunction_Salinity m cs bs TP TPsi GD dtime soln src (map Some prev) n = Ok r /\
  two_equations r n
    (fun i => outflow m qw i + term m cs (fun i c k => stored c k / dtime - nth (2 * i) prev 0 - k_src k) i)
    (fun i => outflow m qs i + term m cs (fun i c k => stored_salt c k (nth (2 * i + 1) soln 0) / dtime - nth (2 * i + 1) prev 0 - nth i src 0) i)
  /\ total (outflow m qw) n = all_subfaces m (fun iv j => crossing m iv j * qw iv j)
  /\ total (outflow m qs) n = all_subfaces m (fun iv j => crossing m iv j * qs iv j).
Proof.
  intros m n N nb cs bs TP TPsi GD qw qs dtime soln src prev GM GS LP QW QS Hd Ls Lr Lp.
  destruct (salinity_ok m n N nb cs bs TP TPsi GD GM GS LP qw qs QW QS dtime soln src prev Hd Ls Lr Lp) as [r [E H]].
  exists r. split; [exact E|]. split; [exact H|]. split; apply (total_outflow m n N nb GM).
Qed.
Print Assumptions C45_balance.

(** What the step before the solve stores: the amounts at the start of the step. *)
Theorem C45_presolve : forall m n N nb cs dtime U a, good_mesh m n N nb -> length cs = N -> dtime <> 0 -> (2 * n <= length U)%nat -> length a = (2 * n)%nat ->
  exists a', PreSolve_Salinity m cs dtime U a = Ok a' /\ length a' = (2 * n)%nat /\
  forall i c k, nth_error cs i = Some c -> nth_error (rocks m) i = Some k -> k_local k = true ->
    nth_error a' (2 * i) = Some (Some (stored c k / dtime)) /\ nth_error a' (2 * i + 1) = Some (Some (stored_salt c k (nth (2 * i + 1) U 0) / dtime)).
Proof. exact presolve_ok. Qed.
Print Assumptions C45_presolve.

Theorem C45_flux_exists : forall m cs bs TP TPsi GD, exists qw qs, on_faces m cs bs (saline_water TP GD) qw /\ on_faces m cs bs (saline_salt TP TPsi) qs.
Proof.
  intros. destruct (on_faces_exists m cs bs (fun up dn zu zd a => - mean_density up dn * mobility (if Rlt_dec (nth a TP 0) 0 then up else dn) * drive up dn (nth a TP 0) (nth a GD 0))) as [qw QW].
  destruct (on_faces_exists m cs bs (fun up dn zu zd a => - mean_density up dn * mobility (if Rlt_dec (nth a TP 0) 0 then up else dn) * nth a TP 0 - mean_density up dn * nth a TPsi 0)) as [qs QS].
  exists qw, qs. split; assumption.
Qed.
Print Assumptions C45_flux_exists.

(** Salt is carried by the water where gravity does not act and the concentration
    upstream is 1.  Missing: every other concentration, and gravity. *)
Theorem C45_carried_partial : forall m cs bs TP TPsi GD qw qs conc bconc iv j v f a up dn,
  on_faces m cs bs (saline_water TP GD) qw -> on_faces m cs bs (saline_salt TP TPsi) qs ->
  subface m iv j = Some (v, f, a) -> active v f = true -> at_side cs bs (f_up f) up -> at_side cs bs (f_dn f) dn ->
  nth a GD 0 = 0 -> side_value conc bconc (if Rlt_dec 0 (qw iv j) then f_up f else f_dn f) = 1 ->
  carried conc bconc TPsi (qw iv j) up dn (f_up f) (f_dn f) a (qs iv j).
Proof.
  intros m cs bs TP TPsi GD qw qs conc bconc iv j v f a up dn QW QS E A Au Ad G C. unfold carried. rewrite C.
  rewrite (QW iv j v f a up dn E A Au Ad), (QS iv j v f a up dn E A Au Ad). unfold saline_water, saline_salt, drive. rewrite G. ring.
Qed.
Print Assumptions C45_carried_partial.

(** Fresh water flows from cell 0 to cell 1: there is no salt anywhere, no
    diffusion and no source, and yet a salt flux of 1. *)
Theorem C45_fresh_water_refuted : exists m n N nb cs bs TP TPsi GD soln src prev r,
  good_mesh m n N nb /\ good_state m N nb cs bs TP GD
  /\ (forall i, nth (2 * i + 1) soln 0 = 0 /\ nth (2 * i + 1) prev 0 = 0 /\ nth i src 0 = 0 /\ nth i TPsi 0 = 0)
  /\ SNESFunction_Salinity m cs bs TP TPsi GD 1 soln src (map Some prev) n = Ok r /\ nth_error r 1 = Some (Some 1).
Proof.
  destruct (pair_salinity 1 1 (-1) 0 0 0 1 1) as [r [E [_ B]]].
  - unfold saline_water, drive, mean_density, mobility; simpl. destruct (Rlt_dec (-1) 0); [|lra]. simpl. field.
  - unfold saline_salt, drive, mean_density, mobility; simpl. destruct (Rlt_dec (-1) 0); [|lra]. simpl. field.
  - exists pair_mesh, 2%nat, 2%nat, 0%nat, [fluid 1; fluid 1], [], [-1; 0; 0; 0], [0; 0; 0; 0], [0; 0; 0; 0], [0; 0; 0; 0], [0; 0], [1; 0; 1; 0], r.
    split; [exact pair_good|]. split; [apply pair_state|]. split; [|split; [exact E|exact B]].
    intro i. split; [|split; [|split]].
    + destruct i as [|[|i]]; [reflexivity..|]. apply nth_overflow. simpl. lia.
    + destruct i as [|[|i]]; [reflexivity..|]. apply nth_overflow. simpl. lia.
    + destruct i as [|[|i]]; [reflexivity..|]. apply nth_overflow. simpl. lia.
    + destruct i as [|[|[|[|i]]]]; [reflexivity..|]. apply nth_overflow. simpl. lia.
Qed.
Print Assumptions C45_fresh_water_refuted.

(** Water of concentration 1 moved by gravity alone takes no salt along. *)
Theorem C45_gravity_refuted : exists m n N nb cs bs TP TPsi GD soln src prev r,
  good_mesh m n N nb /\ good_state m N nb cs bs TP GD
  /\ (forall i, (i < N)%nat -> nth (2 * i + 1) soln 0 = 1) /\ (forall i, nth i TPsi 0 = 0) /\ (forall i, nth i src 0 = 0)
  /\ SNESFunction_Salinity m cs bs TP TPsi GD 1 soln src (map Some prev) n = Ok r
  /\ nth_error r 0 = Some (Some 1) /\ nth_error r 1 = Some (Some 0).
Proof.
  destruct (pair_salinity 1 1 0 0 (-1) 1 1 0) as [r [E [A B]]].
  - unfold saline_water, drive, mean_density, mobility; simpl. destruct (Rlt_dec 0 0); [lra|]. simpl. field.
  - unfold saline_salt, drive, mean_density, mobility; simpl. destruct (Rlt_dec 0 0); [lra|]. simpl. field.
  - exists pair_mesh, 2%nat, 2%nat, 0%nat, [fluid 1; fluid 1], [], [0; 0; 0; 0], [0; 0; 0; 0], [-1; 0; 0; 0], [0; 1; 0; 1], [0; 0], [1; 1; 1; 1], r.
    split; [exact pair_good|]. split; [apply pair_state|]. split; [|split; [|split; [|split; [exact E|split; [exact A|exact B]]]]].
    + intros [|[|i]] Hi; [reflexivity..|lia].
    + intros [|[|[|[|i]]]]; [reflexivity..|]. apply nth_overflow. simpl. lia.
    + intros [|[|i]]; [reflexivity..|]. apply nth_overflow. simpl. lia.
Qed.
Print Assumptions C45_gravity_refuted.

(** ** C57 *)

(** Salinity: the water flux is Darcy's, with the upstream mobility, where the
    pressure alone drives the water the same way and no seepage face is dry. *)
Theorem C57_salinity_partial : forall m cs bs TP GD qw,
  on_faces m cs bs (saline_water TP GD) qw ->
  (forall iv j v f a up dn, subface m iv j = Some (v, f, a) -> active v f = true -> at_side cs bs (f_up f) up -> at_side cs bs (f_dn f) dn ->
     let d := drive up dn (nth a TP 0) (nth a GD 0) in
     (d <> 0 -> (nth a TP 0 < 0 <-> d < 0)) /\ ~ dry_seepage (bc m) (Pref m) (if Rlt_dec d 0 then up else dn)) ->
  is_flux m cs bs TP GD qw.
Proof. exact salinity_darcy. Qed.
Print Assumptions C57_salinity_partial.

(** The pressure drives the water down, gravity more strongly up, and the lower
    side has no mobile water: Darcy's flux is -1, the residual has none. *)
Theorem C57_salinity_upwind_refuted : exists m n N nb cs bs TP TPsi GD soln src prev r,
  good_mesh m n N nb /\ good_state m N nb cs bs TP GD
  /\ SNESFunction_Salinity m cs bs TP TPsi GD 1 soln src (map Some prev) n = Ok r /\ nth_error r 0 = Some (Some 0)
  /\ (forall i c k, nth_error cs i = Some c -> nth_error (rocks m) i = Some k -> stored c k / 1 - nth (2 * i) prev 0 - k_src k = 0)
  /\ forall q, is_flux m cs bs TP GD q -> outflow m q 0 = -1.
Proof.
  destruct (pair_salinity 0 1 (-1) 0 2 0 0 0) as [r [E [A _]]].
  - unfold saline_water, drive, mean_density, mobility; simpl. destruct (Rlt_dec (-1) 0); [|lra]. simpl. field.
  - unfold saline_salt, drive, mean_density, mobility; simpl. destruct (Rlt_dec (-1) 0); [|lra]. simpl. field.
  - exists pair_mesh, 2%nat, 2%nat, 0%nat, [fluid 0; fluid 1], [], [-1; 0; 0; 0], [0; 0; 0; 0], [2; 0; 0; 0], [0; 0; 0; 0], [0; 0], [1; 0; 1; 0], r.
    split; [exact pair_good|]. split; [apply pair_state|]. split; [exact E|]. split; [exact A|]. split.
    + intros [|[|i]] c k Ec Ek; simpl in Ec, Ek; [injection Ec as <-; injection Ek as <-; unfold stored; simpl; lra..|destruct i; discriminate].
    + intros q Q. rewrite pair_outflow.
      destruct (Q 0%nat 0%nat pair_vert (mkFace 0 1 true) 0%nat (inl (fluid 0)) (inl (fluid 1)) (-1) 2) as [_ H]; try reflexivity; try (split; [simpl; lia|reflexivity]).
      rewrite H.
      * clear H. unfold drive, mean_density, mobility; simpl. destruct (Rlt_dec _ 0); simpl; [exfalso; lra|field].
      * intros [C _]. discriminate C.
Qed.
Print Assumptions C57_salinity_upwind_refuted.

(** Water enters through a dry seepage face. *)
Theorem C57_salinity_seepage_refuted : exists m n N nb cs bs TP TPsi GD soln src prev r,
  good_mesh m n N nb /\ good_state m N nb cs bs TP GD
  /\ SNESFunction_Salinity m cs bs TP TPsi GD 1 soln src (map Some prev) n = Ok r /\ nth_error r 0 = Some (Some (-1))
  /\ (forall i c k, nth_error cs i = Some c -> nth_error (rocks m) i = Some k -> stored c k / 1 - nth (2 * i) prev 0 - k_src k = 0)
  /\ forall q, is_flux m cs bs TP GD q -> outflow m q 0 = 0.
Proof.
  set (b := mkBnd (-1) 1 1 1).
  destruct (salinity_ok seep_mesh 1 1 1 [fluid 1] [b] [1; 0; 0; 0] [0; 0; 0; 0] [0; 0; 0; 0] seep_good (seep_state 1 b 1 0 eq_refl) eq_refl (fun _ _ => -1) (fun _ _ => -1))
    with (dtime := 1) (soln := [0; 0]) (src := [0]) (prev := [1; 0]) as [r [E [_ H]]]; try reflexivity; try lra.
  - apply seep_faces. unfold saline_water, drive, mean_density, mobility; simpl. destruct (Rlt_dec 1 0); [lra|]. simpl. field.
  - apply seep_faces. unfold saline_salt, drive, mean_density, mobility; simpl. destruct (Rlt_dec 1 0); [lra|]. simpl. field.
  - exists seep_mesh, 1%nat, 1%nat, 1%nat, [fluid 1], [b], [1; 0; 0; 0], [0; 0; 0; 0], [0; 0; 0; 0], [0; 0], [0], [1; 0], r.
    split; [exact seep_good|]. split; [apply seep_state; reflexivity|]. split; [exact E|]. split; [|split].
    + destruct (H 0%nat ltac:(lia)) as [A _]. etransitivity; [exact A|]. rewrite seep_outflow. unfold term, stored; simpl. do 2 f_equal. lra.
    + intros [|i] c k Ec Ek; simpl in Ec, Ek; [injection Ec as <-; injection Ek as <-; unfold stored; simpl; lra|destruct i; discriminate].
    + intros q Q. rewrite seep_outflow.
      destruct (Q 0%nat 0%nat seep_vert (mkFace 0 (-1) true) 0%nat (inl (fluid 1)) (inr b) 1 0) as [K _]; try reflexivity; try (split; [simpl; lia|reflexivity]).
      apply K. clear K. unfold drive, mean_density; simpl. destruct (Rlt_dec _ 0); [lra|]. split; [reflexivity|]. simpl. lra.
Qed.
Print Assumptions C57_salinity_seepage_refuted.

(** Water and heat: on level faces (no gravity term) the flux is Darcy's up to
    density x mobility x machine epsilon. *)
Theorem C57_th_partial : forall up dn TP GD zu zd a qw qd, nth a GD 0 = 0 -> th_water TP up dn zu zd a qw -> darcy TP GD up dn zu zd a qd ->
  Rabs (qw - qd) <= Rabs (mean_density up dn) * Rabs (mobility (if Rlt_dec (nth a TP 0) 0 then up else dn)) * / 2 ^ 52.
Proof. exact th_darcy. Qed.
Print Assumptions C57_th_partial.

(** Gravity does not move the water. *)
Theorem C57_th_gravity_refuted : exists m n N nb cs bs hs hb TP GD TT du u r,
  good_mesh m n N nb /\ good_state m N nb cs bs TP GD
  /\ IFunction_TH m cs bs hs hb TP TT du u n = Ok r /\ nth_error r 0 = Some (Some 0) /\ (forall i, nth i du 0 = 0)
  /\ forall q, is_flux m cs bs TP GD q -> outflow m q 0 = -1.
Proof.
  destruct (pair_th 1 1 0 0 0) as [r [E A]].
  - unfold th_water, rounded; simpl. rewrite Rabs_R0. destruct (Rlt_dec 0 (/ _)); ring.
  - exists pair_mesh, 2%nat, 2%nat, 0%nat, [fluid 1; fluid 1], [], [cold; cold], [], [0; 0; 0; 0], [1; 0; 0; 0], [0; 0; 0; 0], [0; 0; 0; 0], [0; 0; 0; 0], r.
    split; [exact pair_good|]. split; [apply pair_state|]. split; [exact E|]. split; [exact A|]. split.
    + intros [|[|[|[|i]]]]; [reflexivity..|]. apply nth_overflow. simpl. lia.
    + intros q Q. rewrite pair_outflow.
      destruct (Q 0%nat 0%nat pair_vert (mkFace 0 1 true) 0%nat (inl (fluid 1)) (inl (fluid 1)) 0 1) as [_ H]; try reflexivity; try (split; [simpl; lia|reflexivity]).
      rewrite H.
      * clear H. unfold drive, mean_density, mobility; simpl. destruct (Rlt_dec _ 0); simpl; [exfalso; lra|field].
      * intros [C _]. discriminate C.
Qed.
Print Assumptions C57_th_gravity_refuted.

(** ** C58 *)

(** Both equations, on one process (no ghost cells) or if the memory behind the
    rate vector could be read. *)
Theorem C58_balance_partial : forall m n N nb cs bs hs hb TP TT qw qe du u,
  good_mesh m n N nb -> good_state m N nb cs bs TP TT -> length hs = N -> length hb = nb ->
  on_faces m cs bs (th_water TP) qw -> on_faces m cs bs (th_energy hs hb TP TT) qe ->
  (2 * N <= length du)%nat -> (2 * N <= length u)%nat -> (forall i, (i < N)%nat -> local_cell m i = true <-> (i < n)%nat) ->
  exists r, IFunction_TH m cs bs hs hb TP TT du u n = Ok r /\
  two_equations r n
    (fun i => outflow m qw i + term2 m cs hs (fun i c e k => water_rate c e k (nth (2 * i) du 0) (nth (2 * i + 1) du 0) - k_src k * k_vol k) i)
    (fun i => outflow m qe i + term2 m cs hs (fun i c e k => energy_rate c e k (nth (2 * i) du 0) (nth (2 * i + 1) du 0) - e_src e * k_vol k) i)
  /\ total (outflow m qw) n = all_subfaces m (fun iv j => crossing m iv j * qw iv j)
  /\ total (outflow m qe) n = all_subfaces m (fun iv j => crossing m iv j * qe iv j).
Proof.
  intros m n N nb cs bs hs hb TP TT qw qe du u GM GS Lh Lb QW QE L1 L2 OF.
  destruct (th_ok m n N nb cs bs hs hb TP TT GM GS Lh Lb qw qe QW QE du u L1 L2 OF) as [r [E H]].
  exists r. split; [exact E|]. split; [exact H|]. split; apply (total_outflow m n N nb GM).
Qed.
Print Assumptions C58_balance_partial.

(** With ghost cells the function reads behind the end of the rate vector, which
    holds the owned cells only. *)
Theorem C58_parallel_refuted : forall m n N nb cs bs hs hb TP TT du u,
  good_mesh m n N nb -> good_state m N nb cs bs TP TT -> length hs = N -> length hb = nb ->
  length du = (2 * n)%nat -> (n < N)%nat -> IFunction_TH m cs bs hs hb TP TT du u n = UB.
Proof. exact th_ghosts. Qed.
Print Assumptions C58_parallel_refuted.

(** The energy flux is the water flux times the enthalpy of the side the water
    comes from, minus conduction. *)
Theorem C58_energy_flux : forall m cs bs hs hb TP TT qw qe iv j v f a up dn,
  on_faces m cs bs (th_water TP) qw -> on_faces m cs bs (th_energy hs hb TP TT) qe ->
  subface m iv j = Some (v, f, a) -> active v f = true -> at_side cs bs (f_up f) up -> at_side cs bs (f_dn f) dn ->
  0 <= density up -> 0 <= density dn -> 0 <= mobility up -> 0 <= mobility dn ->
  exists h, (0 < qw iv j -> h = side_value (map e_h hs) hb (f_up f)) /\ (qw iv j < 0 -> h = side_value (map e_h hs) hb (f_dn f))
    /\ qe iv j = qw iv j * h - rounded (nth a TT 0).
Proof. exact energy_flux. Qed.
Print Assumptions C58_energy_flux.

(** If the stored derivatives are those of the state, the rates are those of the
    stored water and of the stored energy (water and rock). *)
Theorem C58_storage : forall (c : R -> cell) (e : R -> heat) (T : R -> R) k t p' t',
  is_derive (fun s => c_rho (c s)) t (c_drho (c t) * p' + e_drho_dT (e t) * t') ->
  is_derive (fun s => c_S (c s)) t (c_dS (c t) * p' + e_dS_dT (e t) * t') ->
  is_derive (fun s => e_u (e s)) t (e_du_dP (e t) * p' + e_du_dT (e t) * t') ->
  is_derive T t t' -> (forall s, e_rho_soil (e s) = e_rho_soil (e t)) -> (forall s, e_c_soil (e s) = e_c_soil (e t)) ->
  is_derive (fun s => stored (c s) k) t (water_rate (c t) (e t) k p' t') /\
  is_derive (fun s => stored_energy (c s) (e s) k (T s)) t (energy_rate (c t) (e t) k p' t').
Proof. exact storage_rates. Qed.
Print Assumptions C58_storage.

(** Hot water flows into a cold cell. *)
Example C58_example : exists r, IFunction_TH pair_mesh [fluid 1; fluid 1] [] [mkHeat 5 0 0 0 0 0 0 0 0; cold] [] [-2; 0; 0; 0] [0; 0; 0; 0] [0; 0; 0; 0] [0; 0; 0; 0] 2 = Ok r
  /\ nth_error r 1 = Some (Some 10) /\ nth_error r 3 = Some (Some (-10)).
Proof. exact hot_example. Qed.
