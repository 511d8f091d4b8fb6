(** C37 (multi-point part), C41, C42, C43, C56: residuals and Jacobians of the
    multi-point flux scheme. *)
From Coq Require Import Reals ZArith List Bool Arith Lia Lra.
From Coquelicot Require Import Coquelicot.
From Verif Require Import Prelude Arrays SpecFvtpf Mpfao MpfaoTs SpecMpfaoTs MpfaoTsProofs MpfaoJacProofs MpfaoDeriveProofs MpfaoBalanceProofs MpfaoTsExamples.
From Verif Require Fvtpf Region.
Import ListNotations.
Local Open Scope R_scope.

(** ** C37 *)

(** Boundary on the up side: no flux into the domain, and water leaves when the
    potential drives it out. *)
Theorem C37_mpfao_up : forall Pref b c tp G, b_vis b <> 0 -> c_vis c <> 0 -> b_P b <= Pref ->
  0 <= b_rho b -> 0 <= c_rho c -> 0 <= c_Kr c / c_vis c ->
  exists v, fluxm SeepageBC Pref (inr b) (inl c) tp G = Some v /\ v <= 0
    /\ (0 < drive (inr b) (inl c) tp G -> 0 < c_rho c -> 0 < c_Kr c / c_vis c -> v < 0).
Proof. exact seepage_up. Qed.
Print Assumptions C37_mpfao_up.

Theorem C37_mpfao_down : forall Pref b c tp G, b_vis b <> 0 -> c_vis c <> 0 -> b_P b <= Pref ->
  0 <= b_rho b -> 0 <= c_rho c -> 0 <= c_Kr c / c_vis c ->
  exists v, fluxm SeepageBC Pref (inl c) (inr b) tp G = Some v /\ 0 <= v
    /\ (drive (inl c) (inr b) tp G < 0 -> 0 < c_rho c -> 0 < c_Kr c / c_vis c -> 0 < v).
Proof. exact seepage_dn. Qed.
Print Assumptions C37_mpfao_down.

(** Water leaves here. *)
Example C37_mpfao_example : exists v, fluxm SeepageBC 0 (inl water) (inr (outside (-1))) (-3) 0 = Some v /\ 0 < v.
Proof.
  destruct (C37_mpfao_down 0 (outside (-1)) water (-3) 0) as [v [E [_ H]]]; simpl; try lra.
  exists v. split; [exact E|]. apply H; unfold drive; simpl; lra.
Qed.

(** ** C41 *)

(** Every entry of the residual is net outflow plus rate of storage minus source;
    their sum contains only the fluxes that cross the boundary of the owned cells. *)
Theorem C41_balance : forall m n N nb cs bs TP GD q dp_dt, good_mesh m n N nb -> good_state m N nb cs bs TP GD ->
  is_flux m cs bs TP GD q -> length dp_dt = n ->
  exists r, IFunction m cs bs TP GD dp_dt n = Ok (map Some r) /\ length r = n
  /\ (forall i, (i < n)%nat -> nth i r 0 = all_subfaces m (fun iv j => orientation m iv j i * q iv j)
                                  + term m cs (fun i c k => storage_rate c k (nth i dp_dt 0) - k_src k * k_vol k) i)
  /\ total (fun i => nth i r 0) n = total (term m cs (fun i c k => storage_rate c k (nth i dp_dt 0) - k_src k * k_vol k)) n
                                  + all_subfaces m (fun iv j => crossing m iv j * q iv j).
Proof. intros m n N nb cs bs TP GD q dp_dt GM GS Q Ld. exact (balance m n N nb cs bs TP GD q GM GS Q dp_dt Ld). Qed.
Print Assumptions C41_balance.

(** On one process, no interior sub-face crosses. *)
Theorem C41_interior_cancels : forall m n N nb, good_mesh m n N nb -> (forall k, In k (rocks m) -> k_local k = true) ->
  forall iv j v f a, subface m iv j = Some (v, f, a) -> (0 <= f_up f)%Z -> (0 <= f_dn f)%Z -> crossing m iv j = 0.
Proof. exact crossing_serial. Qed.
Print Assumptions C41_interior_cancels.

(** A domain closed by Neumann conditions: nothing but storage and sources. *)
Theorem C41_closed_domain : forall m n N nb cs bs TP GD dp_dt, good_mesh m n N nb -> good_state m N nb cs bs TP GD ->
  length dp_dt = n -> (forall k, In k (rocks m) -> k_local k = true) -> bc m = NeumannBC ->
  (forall iv j v f a, subface m iv j = Some (v, f, a) -> closed m f -> nth_error TP a = Some 0 /\ nth_error GD a = Some 0) ->
  exists r, IFunction m cs bs TP GD dp_dt n = Ok (map Some r) /\ length r = n
  /\ total (fun i => nth i r 0) n = total (term m cs (fun i c k => storage_rate c k (nth i dp_dt 0) - k_src k * k_vol k)) n.
Proof. exact closed_domain. Qed.
Print Assumptions C41_closed_domain.

(** There always is such a flux. *)
Theorem C41_flux_exists : forall m cs bs TP GD, exists q, is_flux m cs bs TP GD q.
Proof. intros. eexists. apply flux_of_spec. Qed.
Print Assumptions C41_flux_exists.

Example C41_example : exists r, IFunction (ex_mesh DirichletBC) [gas 2; water] [outside 0] (ex_TP 2) ex_GD [0; 0] 2 = Ok (map Some r)
  /\ nth 0 r 0 = -1/2 /\ nth 1 r 0 = -1/2.
Proof.
  destruct (C41_balance (ex_mesh DirichletBC) 2 2 1 [gas 2; water] [outside 0] (ex_TP 2) ex_GD _ [0; 0] (ex_mesh_good _) ex_state_good (flux_of_spec _ _ _ _ _) eq_refl) as [r [E [L [H _]]]].
  exists r. split; [exact E|]. rewrite (H 0%nat), (H 1%nat) by lia. rewrite ex_TP_value.
  unfold all_subfaces, orientation, flux_of, term, storage_rate, the_flux, drive, mean_density, mobility; simpl.
  repeat (destruct (Rlt_dec _ 0); [|exfalso; lra]; simpl). split; lra.
Qed.

(** ** C42 *)

(** Entry (i, k) of the transient Jacobian is the derivative of residual entry i
    with respect to the pressure of cell k, the rates being shift * pressure + b0,
    the boundary pressures being prescribed.  [junk] is what uninitialised memory
    holds. *)
Theorem C42_transient_jacobian : forall m n N nb cs bs GD T junk k c p l f adj P shift dp0 b0,
  good_mesh m n N nb -> (k < N)%nat -> consistent c p -> good_vertices m GD -> allocated m T -> placed m T N l -> length dp0 = n ->
  let TP x := TtimesP m l (P_vec (Some f) adj N (with_cell P k x)) in
  good_state m N nb (upd cs k (c p)) bs (TP p) GD -> decided m (upd cs k (c p)) bs (TP p) GD ->
  exists B, IJacobian m (upd cs k (c p)) bs (TP p) GD T junk shift (upd dp0 k (shift * p + b0)) = Ok B /\
  forall i, (i < n)%nat -> exists d, Fvtpf.entry B (Z.of_nat i) (Z.of_nat k) = Some d /\
    has_derivative (fun x => component (IFunction m (upd cs k (c x)) bs (TP x) GD (upd dp0 k (shift * x + b0)) n) i) p d.
Proof. exact ts_jacobian. Qed.
Print Assumptions C42_transient_jacobian.

Theorem C42_step_jacobian : forall m n N nb cs bs GD T junk k c p l f adj P dtime prev,
  good_mesh m n N nb -> (k < N)%nat -> consistent c p -> good_vertices m GD -> allocated m T -> placed m T N l -> dtime <> 0 -> length prev = n ->
  let TP x := TtimesP m l (P_vec (Some f) adj N (with_cell P k x)) in
  good_state m N nb (upd cs k (c p)) bs (TP p) GD -> decided m (upd cs k (c p)) bs (TP p) GD ->
  exists B, SNESJacobian m (upd cs k (c p)) bs (TP p) GD T junk dtime = Ok B /\
  forall i, (i < n)%nat -> exists d, Fvtpf.entry B (Z.of_nat i) (Z.of_nat k) = Some d /\
    has_derivative (fun x => component (SNESFunction m (upd cs k (c x)) bs (TP x) GD dtime (map Some prev) n) i) p d.
Proof. exact snes_jacobian. Qed.
Print Assumptions C42_step_jacobian.

(** Without a boundary pressure function the boundary takes the pressure of the
    cell, and the Jacobian misses that dependence. *)
Theorem C42_free_boundary_refuted : exists m n N nb GD T l adj P bs p d,
  good_mesh m n N nb /\ good_vertices m GD /\ allocated m T /\ placed m T N l /\ consistent (fun _ => water) p /\
  let TP x := TtimesP m l (P_vec None adj N (with_cell P 0 x)) in
  good_state m N nb [water] bs (TP p) GD /\ decided m [water] bs (TP p) GD /\ d <> 0 /\
  (forall junk, exists B, SNESJacobian m [water] bs (TP p) GD T junk 1 = Ok B /\ Fvtpf.entry B 0 0 = Some d) /\
  has_derivative (fun x => component (SNESFunction m [water] bs (TP x) GD 1 [Some 0] n) 0) p 0.
Proof.
  exists bd_mesh, 1%nat, 1%nat, 1%nat, bd_GD, [[[-1]]], bd_l, (fun _ => 0%nat), (fun _ => 0), [outside 0], 0, 1.
  destruct bd_good as [A [B [C D]]]. destruct (bd_state 0) as [E F].
  split; [exact A|]. split; [exact B|]. split; [exact C|]. split; [exact D|]. split; [apply water_consistent|].
  split; [exact E|]. split; [exact F|]. split; [lra|]. split; [intro junk; exact (bd_jacobian junk 0)|].
  exists (fun _ => 0). split; [apply filter_forall; exact bd_residual|apply (is_derive_const 0)].
Qed.
Print Assumptions C42_free_boundary_refuted.

(** Between two connected regions the matrix is cleared, the array that the
    Jacobian uses is not. *)
Theorem C42_regions_refuted : exists m n N nb GD T r M TM p d,
  good_mesh m n N nb /\ good_vertices m GD /\ allocated m T /\ T = [[[-1; 1]]] /\ M = [[-1; 1]; [0; 0]; [0; 0]; [0; 0]] /\
  Region.UpdateTransmissibilityMatrix r [(0%Z, 1%Z)] M = Ok TM /\
  let TP x := map (fun row => Region.row_times row [x; 1]) TM in
  good_state m N nb [water; water] [] (TP p) GD /\ decided m [water; water] [] (TP p) GD /\ d <> 0 /\
  (forall junk, exists B, SNESJacobian m [water; water] [] (TP p) GD T junk 1 = Ok B /\ Fvtpf.entry B 0 0 = Some d) /\
  has_derivative (fun x => component (SNESFunction m [water; water] [] (TP x) GD 1 (map Some [0; 0]) n) 0) p 0.
Proof.
  exists rg_mesh, 2%nat, 2%nat, 0%nat, (rg_GD 1), rg_T, rg_region, rg_matrix, [[0; 0]; [0; 0]; [0; 0]; [0; 0]], 0, 1.
  destruct rg_good as [A [B C]].
  split; [exact A|]. split; [apply B|]. split; [exact C|]. split; [reflexivity|]. split; [reflexivity|]. split; [exact rg_update|].
  split; [apply rg_state|]. split; [apply rg_decided|]. split; [lra|]. split; [intro junk; exact (rg_jacobian junk 0)|].
  exists (fun _ => 0). split; [apply filter_forall; exact rg_snes|apply (is_derive_const 0)].
Qed.
Print Assumptions C42_regions_refuted.

Example C42_hypotheses_met : forall junk, exists B,
  IJacobian (ex_mesh DirichletBC) (upd [water; water] 0 (gas 2)) [outside 0] (ex_TP 2) ex_GD ex_T junk 10 (upd [0; 0] 0 (10 * 2 + (-20))) = Ok B
  /\ exists d, Fvtpf.entry B 1 0 = Some d
  /\ has_derivative (fun x => component (IFunction (ex_mesh DirichletBC) (upd [water; water] 0 (gas x)) [outside 0] (ex_TP x) ex_GD (upd [0; 0] 0 (10 * x + (-20))) 2) 1) 2 d.
Proof.
  intro junk. destruct (C42_transient_jacobian (ex_mesh DirichletBC) 2 2 1 [water; water] [outside 0] ex_GD ex_T junk 0 gas 2 ex_l (fun _ => 0) (fun _ => 1%nat) ex_P 10 [0; 0] (-20)
    (ex_mesh_good _) ltac:(lia) (gas_consistent 2) (ex_vertices_good _) (ex_allocated _) ex_placed eq_refl ex_state_good ex_decided) as [B [E H]].
  exists B. split; [exact E|]. exact (H 1%nat ltac:(lia)).
Qed.

(** ** C43 *)

(** The pressure formulation: whatever the fluid, the rate term is the rate of
    change of density x porosity x saturation x volume along the solution. *)
Theorem C43_pressure_formulation : forall m n N nb cs bs TP GD q dp_dt i c P t k,
  good_mesh m n N nb -> good_state m N nb cs bs TP GD -> is_flux m cs bs TP GD q -> length dp_dt = n ->
  nth_error cs i = Some (c (P t)) -> nth_error (rocks m) i = Some k -> k_local k = true ->
  consistent c (P t) -> is_derive P t (nth i dp_dt 0) ->
  exists rate, is_derive (fun t => stored (c (P t)) k) t rate /\
  component (IFunction m cs bs TP GD dp_dt n) i = Some (all_subfaces m (fun iv j => orientation m iv j i * q iv j) + rate - k_src k * k_vol k).
Proof.
  intros m n N nb cs bs TP GD q dp_dt i c P t k GM GS Q Ld Ec Ek L CC DP. eexists. split; [exact (storage_chain c P t _ k CC DP)|].
  exact (ts_component m n N nb cs bs TP GD q GM GS Q dp_dt i _ k Ld Ec Ek L).
Qed.
Print Assumptions C43_pressure_formulation.

(** The transient-variable formulation, [dm_dt] being the rate of change of the
    variable that TransientVariable defines.  Missing: cells whose volume is not 1. *)
Theorem C43_transient_variable_partial : forall m n N nb cs bs TP GD q dm_dt i (c : R -> cell) t k,
  good_mesh m n N nb -> good_state m N nb cs bs TP GD -> is_flux m cs bs TP GD q -> length dm_dt = n ->
  nth_error cs i = Some (c t) -> nth_error (rocks m) i = Some k -> k_local k = true ->
  is_derive (fun t => TransientVariable (c t) k) t (nth i dm_dt 0) -> k_vol k = 1 ->
  exists rate, is_derive (fun t => stored (c t) k) t rate /\
  component (IFunction_TransientVariable m cs bs TP GD dm_dt n) i = Some (all_subfaces m (fun iv j => orientation m iv j i * q iv j) + rate - k_src k * k_vol k).
Proof.
  intros m n N nb cs bs TP GD q dm_dt i c t k GM GS Q Ld Ec Ek L DM V. eexists. split; [exact DM|].
  rewrite (tv_component m n N nb cs bs TP GD q GM GS Q dm_dt i _ k Ld Ec Ek L). rewrite V. f_equal. ring.
Qed.
Print Assumptions C43_transient_variable_partial.

(** The mass of the lone cell (volume 2) grows at rate 1; the residual has 2. *)
Theorem C43_transient_variable_refuted : exists m k (c : R -> cell) t dm,
  good_mesh m 1 1 0 /\ good_state m 1 0 [c t] [] [] [] /\ nth_error (rocks m) 0 = Some k /\ k_src k = 0 /\
  is_derive (fun t => TransientVariable (c t) k) t dm /\ is_derive (fun t => stored (c t) k) t dm /\
  component (IFunction_TransientVariable m [c t] [] [] [] [dm] 1) 0 = Some (2 * dm) /\ dm <> 0.
Proof.
  exists (lone_mesh 0), (mkRock 1 2 0 true), (fun t => mkCell 1 0 0 1 0 t 0 0 1 0), 1, 2.
  destruct (lone_good 0) as [GM GS]. split; [exact GM|]. split; [exact GS|]. split; [reflexivity|]. split; [reflexivity|].
  split; [unfold TransientVariable; simpl; auto_derive; [exact I|ring]|]. split; [unfold stored; simpl; auto_derive; [exact I|ring]|]. split; [|lra].
  etransitivity; [exact (tv_component (lone_mesh 0) 1 1 0 [water] [] [] [] _ GM GS (flux_of_spec _ _ _ _ _) [2] 0 water (mkRock 1 2 0 true) eq_refl eq_refl eq_refl eq_refl)|].
  f_equal. unfold all_subfaces; simpl. ring.
Qed.
Print Assumptions C43_transient_variable_refuted.

(** The differential-algebraic formulation: two equations per cell.  The second
    ties the mass unknown to density x porosity x saturation x volume; the first
    is the balance.  Missing: cells whose volume is not 1. *)
Theorem C43_dae_partial : forall m n N nb cs bs TP GD q ms u_t,
  good_mesh m n N nb -> good_state m N nb cs bs TP GD -> is_flux m cs bs TP GD q -> length ms = n -> length u_t = (2 * n)%nat ->
  exists r, IFunction_DAE m cs bs TP GD ms u_t n = Ok r /\ length r = (2 * n)%nat /\
  forall i c k, nth_error cs i = Some c -> nth_error (rocks m) i = Some k -> k_local k = true ->
    (k_vol k = 1 -> nth_error r (2 * i) = Some (Some (all_subfaces m (fun iv j => orientation m iv j i * q iv j) + nth (2 * i + 1) u_t 0 - k_src k * k_vol k)))
    /\ nth_error r (2 * i + 1) = Some (Some (nth i ms 0 - stored c k)).
Proof.
  intros m n N nb cs bs TP GD q ms u_t GM GS Q Lm Lu. destruct (dae_ok m n N nb cs bs TP GD q GM GS Q ms u_t Lm Lu) as [r [E [L H]]].
  exists r. split; [exact E|]. split; [exact L|]. intros i c k Ec Ek K. destruct (H i c k Ec Ek K) as [A B]. split; [|exact B].
  intro V. rewrite A, V. do 2 f_equal. ring.
Qed.
Print Assumptions C43_dae_partial.

(** For the lone cell of volume 2 the algebraic equation holds and the rate of the
    mass unknown is 1, but the balance contains 2. *)
Theorem C43_dae_refuted : exists m k c M, good_mesh m 1 1 0 /\ good_state m 1 0 [c] [] [] [] /\ nth_error (rocks m) 0 = Some k /\ k_src k = 0 /\
  M = stored c k /\ IFunction_DAE m [c] [] [] [] [M] [0; 1] 1 = Ok [Some 2; Some 0].
Proof.
  exists (lone_mesh 0), (mkRock 1 2 0 true), water, (stored water (mkRock 1 2 0 true)).
  destruct (lone_good 0) as [GM GS]. split; [exact GM|]. split; [exact GS|]. split; [reflexivity|]. split; [reflexivity|]. split; [reflexivity|].
  unfold stored; simpl. cbv -[Rplus Ropp Rminus Rmult IZR]. do 2 f_equal; [|f_equal]; f_equal; ring.
Qed.
Print Assumptions C43_dae_refuted.

(** One implicit step of length [dtime], [prev] being the previous mass over
    dtime.  Missing: a source in a cell whose volume is not 1. *)
Theorem C43_step_partial : forall m n N nb cs bs TP GD q dtime prev i c k,
  good_mesh m n N nb -> good_state m N nb cs bs TP GD -> is_flux m cs bs TP GD q -> dtime <> 0 -> length prev = n ->
  nth_error cs i = Some c -> nth_error (rocks m) i = Some k -> k_local k = true -> k_src k = 0 \/ k_vol k = 1 ->
  component (SNESFunction m cs bs TP GD dtime (map Some prev) n) i =
  Some (all_subfaces m (fun iv j => orientation m iv j i * q iv j) + (stored c k / dtime - nth i prev 0) - k_src k * k_vol k).
Proof.
  intros m n N nb cs bs TP GD q dtime prev i c k GM GS Q Hd Lp Ec Ek L H.
  rewrite (snes_component m n N nb cs bs TP GD q GM GS Q dtime prev i c k Hd Lp Ec Ek L). f_equal. destruct H as [->| ->]; ring.
Qed.
Print Assumptions C43_step_partial.

(** A unit source in the lone cell of volume 2 enters as 1 instead of 2, with both
    schemes. *)
Theorem C43_step_refuted : exists m k c prev, good_mesh m 1 1 0 /\ good_state m 1 0 [c] [] [] [] /\ nth_error (rocks m) 0 = Some k /\
  component (SNESFunction m [c] [] [] [] 1 (map Some [prev]) 1) 0 = Some (stored c k - prev - k_src k) /\ k_src k <> k_src k * k_vol k.
Proof.
  exists (lone_mesh 1), (mkRock 1 2 1 true), water, 0.
  destruct (lone_good 1) as [GM GS]. split; [exact GM|]. split; [exact GS|]. split; [reflexivity|]. split; [|simpl; lra].
  rewrite (snes_component (lone_mesh 1) 1 1 0 [water] [] [] [] _ GM GS (flux_of_spec _ _ _ _ _) 1 [0] 0 water (mkRock 1 2 1 true)); try reflexivity; try lra.
  f_equal. unfold all_subfaces, stored; simpl. field.
Qed.
Print Assumptions C43_step_refuted.

(** The same with the two-point scheme: a unit source in a cell of volume 2 enters as 1. *)
Theorem C43_fvtpf_step_refuted : exists g c junk v, Fvtpf.faces g = [] /\ Fvtpf.rocks g = [Fvtpf.mkRock 1 2 1 true] /\ Fvtpf.dtime g = 1 /\
  Fvtpf.SNESFunction g [c] [] [0] junk 1 = Ok [Some v] /\ v = Fvtpf.c_rho c * 1 * Fvtpf.c_S c * 2 - 1.
Proof.
  exists (Fvtpf.mkGrid [] [Fvtpf.mkRock 1 2 1 true] [] (0, 0, 0) 0 1), (Fvtpf.mkCell 0 1 0 1 0 1 0 1 0), (fun _ => None).
  eexists. split; [reflexivity|]. split; [reflexivity|]. split; [reflexivity|]. split.
  - unfold Fvtpf.SNESFunction. simpl. unfold for_; simpl. unfold Fvtpf.accumulation_cell; simpl. unfold Fvtpf.Accumulation, fdiv; simpl.
    destruct (Req_EM_T 1 0); [lra|]. simpl. reflexivity.
  - simpl. lra.
Qed.
Print Assumptions C43_fvtpf_step_refuted.

Example C43_example : exists rate, is_derive (fun t => stored (gas (2 + 3 * t)) (mkRock (1/2) 2 1 true)) 0 rate /\
  component (IFunction (ex_mesh DirichletBC) [gas (2 + 3 * 0); water] [outside 0] (ex_TP 2) ex_GD [3; 0] 2) 0 =
  Some (all_subfaces (ex_mesh DirichletBC) (fun iv j => orientation (ex_mesh DirichletBC) iv j 0 * flux_of (ex_mesh DirichletBC) [gas (2 + 3 * 0); water] [outside 0] (ex_TP 2) ex_GD iv j) + rate - 1 * 2).
Proof.
  apply (C43_pressure_formulation (ex_mesh DirichletBC) 2 2 1 [gas (2 + 3 * 0); water] [outside 0] (ex_TP 2) ex_GD _ [3; 0] 0 gas (fun t => 2 + 3 * t) 0 (mkRock (1/2) 2 1 true)); try reflexivity.
  - apply ex_mesh_good.
  - split; [reflexivity|]. split; [reflexivity|]. split; [intros c [<-|[<-|[]]]; simpl; lra|]. split; [intros b [<-|[]]; simpl; lra|]. split; reflexivity.
  - apply flux_of_spec.
  - apply gas_consistent.
  - simpl. auto_derive; [exact I|ring].
Qed.

(** ** C56 *)

(** Cells of different regions exchange nothing through a sub-face without
    gravity term.  Missing: sub-faces with a gravity term. *)
Theorem C56_level_faces_partial : forall m cs bs TP GD q iv j v f a up dn,
  is_flux m cs bs TP GD q -> subface m iv j = Some (v, f, a) -> active v f = true ->
  at_side cs bs (f_up f) up -> at_side cs bs (f_dn f) dn ->
  nth_error TP a = Some 0 -> nth_error GD a = Some 0 -> q iv j = 0.
Proof.
  intros m cs bs TP GD q iv j v f a up dn Q Es A Au Ad Et EG. destruct (Q iv j v f a up dn 0 0 Es A Au Ad Et EG) as [H1 H2].
  cbv zeta in *. set (s := if Rlt_dec _ 0 then up else dn) in *. destruct (blocked (bc m) (Pref m) s) eqn:B.
  - apply H1. apply blocked_spec. exact B.
  - rewrite H2; [unfold drive; ring|]. intro H. apply blocked_spec in H. congruence.
Qed.
Print Assumptions C56_level_faces_partial.

(** Two cells in different regions, no pressure or storage change: the gravity term
    still moves water from one to the other. *)
Theorem C56_gravity_refuted : exists m GD r M TM,
  good_mesh m 2 2 0 /\ Region.UpdateTransmissibilityMatrix r [(0%Z, 1%Z)] M = Ok TM /\
  Region.AreCellsInTheSameRegion r 0 1 = Ok 0%Z /\ map (fun f => (f_up f, f_dn f)) (faces m) = [(0%Z, 1%Z)] /\
  good_state m 2 0 [water; water] [] (map (fun row => Region.row_times row [1; 1]) TM) GD /\
  exists res, IFunction m [water; water] [] (map (fun row => Region.row_times row [1; 1]) TM) GD [0; 0] 2 = Ok (map Some res)
    /\ nth 0 res 0 = -1 /\ nth 1 res 0 = 1.
Proof.
  exists rg_mesh, (rg_GD 1), rg_region, rg_matrix, [[0; 0]; [0; 0]; [0; 0]; [0; 0]]. destruct rg_good as [A _].
  split; [exact A|]. split; [exact rg_update|]. split; [reflexivity|]. split; [reflexivity|]. split; [exact (rg_state 1 1)|].
  destruct (rg_residual 1 1 ltac:(lra)) as [r [E [_ [H0 H1]]]]. exists r. split; [exact E|]. split; [exact H0|exact H1].
Qed.
Print Assumptions C56_gravity_refuted.
