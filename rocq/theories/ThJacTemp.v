(** The temperature columns of the blocks of the water and heat mode. *)
From Coq Require Import Reals ZArith List Bool Arith Lia Lra.
From Coquelicot Require Import Coquelicot.
From Verif Require Import Prelude Arrays SpecFvtpf FvtpfSumProofs Mpfao MpfaoTs SpecMpfaoTs FvtpfAssemblyProofs MpfaoTsProofs MpfaoJacProofs MpfaoDeriveProofs.
From Verif Require Import Transport SpecTransport TransportProofs ThJac SpecThJac ThJacProofs.
From Verif Require Fvtpf.
Import ListNotations.
Local Open Scope R_scope.

Local Ltac req := match goal with |- @eq _ ?a ?b => change (@eq R a b) end.

Lemma water_flux_derive : forall (r1 r2 kr vi : R -> R) tp T l1 l2 lk lv,
  is_derive r1 T l1 -> is_derive r2 T l2 -> is_derive kr T lk -> is_derive vi T lv -> vi T <> 0 ->
  is_derive (fun x => (0 + r1 x + r2 x) * 0.5 * (kr x / vi x * - tp)) T
    (- (0.5 * (l1 + l2) * (kr T / vi T) * tp + (0 + r1 T + r2 T) * 0.5 * (lk / vi T - kr T / (vi T * vi T) * lv) * tp)).
Proof.
  intros r1 r2 kr vi tp T l1 l2 lk lv D1 D2 D3 D4 NZ.
  auto_derive; [repeat split; try (eexists; eassumption); exact NZ|].
  rewrite (is_derive_unique (fun x : R => r1 x) T _ D1), (is_derive_unique (fun x : R => r2 x) T _ D2), (is_derive_unique (fun x : R => kr x) T _ D3), (is_derive_unique (fun x : R => vi x) T _ D4).
  field. exact NZ.
Qed.

Section Temp.
Variables (cs : list cell) (bs : list bnd) (hs : list heat) (hb : list R) (ts : list thermal) (TP : list R) (TT : R -> list R).
Variables (k a : nat) (zup zdn : Z) (c : R -> cell) (e : R -> heat) (t : thermal) (T tp tq b0 : R).
Local Notation csx x := (upd cs k (c x)).
Local Notation hsx x := (upd hs k (e x)).
Hypothesis Lh : length hs = length cs.
Hypothesis Lt : length ts = length cs.
Hypothesis Zu : (0 <= zup < Z.of_nat (length cs))%Z.
Hypothesis Zd : (0 <= zdn < Z.of_nat (length cs))%Z.
Hypothesis ND : zup <> zdn.
Hypothesis Hk : (k < length cs)%nat.
Hypothesis Et : nth_error ts k = Some t.
Hypothesis Vc : forall c, In c cs -> c_vis c <> 0.
Hypothesis HTP : nth_error TP a = Some tp.
Hypothesis Flow : / 2 ^ 52 < Rabs tp.
Hypothesis HTT : forall x, nth_error (TT x) a = Some (b0 + tq * x).
Hypothesis Heat : / 2 ^ 52 < Rabs (b0 + tq * T).
Hypothesis FT : flux_by_temperature c e (t_dvis_dT t) (t_dh_dT t) T.

(** Cell [z] as a function of the temperature of cell [k]. *)
Definition cellx (z : Z) (x : R) : cell := if (z =? Z.of_nat k)%Z then c x else nth (Z.to_nat z) cs (c T).
Definition heatx (z : Z) (x : R) : heat := if (z =? Z.of_nat k)%Z then e x else nth (Z.to_nat z) hs (e T).

Lemma at_cell : forall z x, (0 <= z < Z.of_nat (length cs))%Z -> Fvtpf.at_ (csx x) z = Ok (cellx z x).
Proof.
  intros z x Hz. unfold Fvtpf.at_, cellx. destruct (Z.ltb_spec z 0); [lia|]. destruct (Z.eqb_spec z (Z.of_nat k)) as [->|NE].
  - rewrite Nat2Z.id. apply rd_some. rewrite nth_upd, Nat.eqb_refl. destruct (Nat.ltb_spec k (length cs)); [reflexivity|lia].
  - apply rd_some. rewrite nth_upd. destruct (Nat.eqb_spec k (Z.to_nat z)); [lia|]. apply nth_error_nth'. lia.
Qed.
Lemma at_heat : forall z x, (0 <= z < Z.of_nat (length cs))%Z -> Fvtpf.at_ (hsx x) z = Ok (heatx z x).
Proof.
  intros z x Hz. unfold Fvtpf.at_, heatx. destruct (Z.ltb_spec z 0); [lia|]. destruct (Z.eqb_spec z (Z.of_nat k)) as [->|NE].
  - rewrite Nat2Z.id. apply rd_some. rewrite nth_upd, Nat.eqb_refl. destruct (Nat.ltb_spec k (length hs)); [reflexivity|lia].
  - apply rd_some. rewrite nth_upd. destruct (Nat.eqb_spec k (Z.to_nat z)); [lia|]. apply nth_error_nth'. lia.
Qed.
Lemma vis_cell : forall z, (0 <= z < Z.of_nat (length cs))%Z -> c_vis (cellx z T) <> 0.
Proof.
  intros z Hz. unfold cellx. destruct (z =? Z.of_nat k)%Z; [apply FT|]. apply Vc. apply nth_In. lia.
Qed.

(** Derivatives of what a flux takes from cell [z]. *)
Lemma cell_derives : forall z,
  let d := coeff (z =? Z.of_nat k)%Z in
  is_derive (fun x => c_rho (cellx z x)) T (d * e_drho_dT (e T)) /\ is_derive (fun x => c_vis (cellx z x)) T (d * t_dvis_dT t)
  /\ is_derive (fun x => c_Kr (cellx z x)) T (d * (c_dKr (c T) * e_dS_dT (e T))) /\ is_derive (fun x => e_h (heatx z x)) T (d * t_dh_dT t).
Proof.
  intro z. cbv zeta. unfold cellx, heatx. destruct FT as [F1 [F2 [_ [F4 F5]]]].
  destruct (z =? Z.of_nat k)%Z; unfold coeff; [rewrite !Rmult_1_l; auto|]. rewrite !Rmult_0_l.
  split; [|split; [|split]]; apply (is_derive_const (V := R_NormedModule)).
Qed.

Local Notation zs := (if Rlt_dec tp 0 then zup else zdn).
Lemma zs_in : (0 <= zs < Z.of_nat (length cs))%Z.
Proof. destruct (Rlt_dec tp 0); assumption. Qed.

Definition den (x : R) : R := (0 + c_rho (cellx zup x) + c_rho (cellx zdn x)) * 0.5.
Definition wflux (x : R) : R := den x * (c_Kr (cellx zs x) / c_vis (cellx zs x) * - tp).

Lemma chop_tp : chop tp = tp.
Proof. unfold chop, epsilon. destruct (Rlt_dec _ _); [lra|reflexivity]. Qed.

Lemma flux_near : locally T (fun x => th_flux (csx x) bs (hsx x) hb TP (TT x) zup zdn a =
  Ok (Some (wflux x), Some (wflux x * e_h (heatx zs x) + - (b0 + tq * x)))).
Proof.
  assert (V : locally T (fun x => c_vis (cellx zs x) <> 0)).
  { destruct (cell_derives zs) as [_ [D _]].
    assert (C : continuous (fun x => c_vis (cellx zs x)) T) by (apply (ex_derive_continuous (V := R_NormedModule)); eexists; exact D).
    apply (C (fun y => y <> 0)). apply (open_neq 0). apply vis_cell. apply zs_in. }
  assert (Dq : is_derive (fun x => b0 + tq * x) T tq) by (auto_derive; [exact I|ring]).
  generalize (settle _ T _ Dq Heat). intro S1. generalize (filter_and _ _ V S1). apply filter_imp. intros x [Vx [Sx _]].
  unfold th_flux. rewrite (rd_some _ _ _ HTP). cbn [bind]. rewrite (rd_some _ _ _ (HTT x)). cbn [bind]. cbv zeta. rewrite chop_tp.
  change (chop (b0 + tq * x)) with (rounded (b0 + tq * x)). rewrite Sx.
  unfold side_at, enthalpy_at.
  destruct (Z.leb_spec 0 zup) as [_|]; [|lia]. destruct (Z.leb_spec 0 zdn) as [_|]; [|lia].
  rewrite (at_cell zup x Zu), (at_cell zdn x Zd). cbn [bind]. pose proof zs_in as Hz.
  destruct (Z.leb_spec 0 zs) as [_|]; [|lia]. rewrite (at_heat zs x Hz). cbn [bind].
  unfold wflux, den in *. destruct (Rlt_dec tp 0); cbn [Kr vis rho] in *; rewrite fdiv_ok by exact Vx; reflexivity.
Qed.

Definition dwater : R :=
  let d z := coeff (z =? Z.of_nat k)%Z in
  - (0.5 * (d zup * e_drho_dT (e T) + d zdn * e_drho_dT (e T)) * (c_Kr (cellx zs T) / c_vis (cellx zs T)) * tp
     + den T * (d zs * (c_dKr (c T) * e_dS_dT (e T)) / c_vis (cellx zs T) - c_Kr (cellx zs T) / (c_vis (cellx zs T) * c_vis (cellx zs T)) * (d zs * t_dvis_dT t)) * tp).
Lemma wflux_derive : is_derive wflux T dwater.
Proof.
  destruct (cell_derives zup) as [U _]. destruct (cell_derives zdn) as [D _]. destruct (cell_derives zs) as [_ [V [K _]]].
  exact (water_flux_derive _ _ _ _ tp T _ _ _ _ U D K V (vis_cell zs zs_in)).
Qed.
Definition dheat : R := dwater * e_h (heatx zs T) + wflux T * (coeff (zs =? Z.of_nat k)%Z * t_dh_dT t) - tq.
Lemma hflux_derive : is_derive (fun x => wflux x * e_h (heatx zs x) + - (b0 + tq * x)) T dheat.
Proof.
  destruct (cell_derives zs) as [_ [_ [_ D]]]. pose proof wflux_derive as W.
  assert (Dq : is_derive (fun x => - (b0 + tq * x)) T (- tq)) by (auto_derive; [exact I|ring]).
  match goal with |- is_derive ?f T ?l => cut (exists l', l' = l /\ is_derive f T l'); [intros [l' [<- H]]; exact H|] end. eexists. split; cycle 1.
  - apply (is_derive_plus (V := R_NormedModule)); [|exact Dq].
    apply (is_derive_mult wflux (fun x => e_h (heatx zs x))); [exact W|exact D|intros; apply Rmult_comm].
  - unfold dheat, plus, Hierarchy.mult; simpl. req. ring.
Qed.

Lemma temp_half : forall z, (0 <= z < Z.of_nat (length cs))%Z -> half_of (map e_drho_dT (hsx T)) z = Ok (0.5 * e_drho_dT (heatx z T)).
Proof.
  intros z Hz. unfold half_of. destruct (Z.leb_spec 0 z); [|lia]. unfold Fvtpf.at_. destruct (Z.ltb_spec z 0); [lia|].
  pose proof (at_heat z T Hz) as A. unfold Fvtpf.at_ in A. destruct (Z.ltb_spec z 0); [lia|].
  rewrite (rd_some _ _ (e_drho_dT (heatx z T))); [reflexivity|]. rewrite nth_error_map, (rd_inv _ _ _ A). reflexivity.
Qed.
Lemma chop_opp_near : forall x y, x = - y -> Rabs (- chop y - x) <= / 2 ^ 52.
Proof. intros x y ->. replace (- chop y - - y) with (- (chop y - y)) by ring. rewrite Rabs_Ropp. apply chop_near. Qed.

(** The block that the code adds for the column of cell [k]. *)
Lemma temperature_block : forall d1 d2 tk g,
  exists w dup ddn x y, upwind_at (csx T) bs (hsx T) hb ts zs = Ok w
  /\ half_of (map e_drho_dT (hsx T)) zup = Ok dup /\ half_of (map e_drho_dT (hsx T)) zdn = Ok ddn
  /\ (let '(_, _, qa, qb) := th_block zup zdn tp (den T) w (d1, d2, dup, ddn) k tk tq g in qa = Some x /\ qb = Some y)
  /\ let extra := coeff ((zup =? Z.of_nat k)%Z || (zdn =? Z.of_nat k)%Z) * (den T * (c_Kr (cellx zs T) / c_vis (cellx zs T)) * tk * (1 + e_drho_dT (e T) / 2 * g)) in
     Rabs (x - (dwater - extra)) <= / 2 ^ 52 /\ Rabs (y - (dheat - extra * e_h (heatx zs T))) <= / 2 ^ 52.
Proof.
  intros d1 d2 tk g. pose proof zs_in as Hz.
  destruct (rd_ok ts (Z.to_nat zs)) as [t1 [Rt Et1]]; [lia|].
  assert (T1 : zs = Z.of_nat k -> t1 = t) by (intro Q; rewrite Q, Nat2Z.id, Et in Et1; congruence).
  assert (UW : upwind_at (csx T) bs (hsx T) hb ts zs = Ok (lift (mkUpwindR (c_Kr (cellx zs T) / c_vis (cellx zs T))
     (c_dKr (cellx zs T) * c_dS (cellx zs T) / c_vis (cellx zs T) - c_Kr (cellx zs T) / (c_vis (cellx zs T) * c_vis (cellx zs T)) * c_dvis (cellx zs T))
     (c_dKr (cellx zs T) * e_dS_dT (heatx zs T) / c_vis (cellx zs T) - c_Kr (cellx zs T) / (c_vis (cellx zs T) * c_vis (cellx zs T)) * t_dvis_dT t1)
     (e_h (heatx zs T)) (t_dh_dP t1) (t_dh_dT t1)))).
  { pose proof (vis_cell zs Hz) as V. assert (V2 : c_vis (cellx zs T) * c_vis (cellx zs T) <> 0) by (apply Rmult_integral_contrapositive_currified; exact V).
    unfold upwind_at. destruct (Z.leb_spec 0 zs); [|lia]. rewrite (at_cell zs T Hz), (at_heat zs T Hz). cbn [bind].
    unfold Fvtpf.at_. destruct (Z.ltb_spec zs 0); [lia|]. rewrite Rt. cbn [bind]. rewrite !fdiv_ok by assumption. reflexivity. }
  assert (B1 : ((-1 <? zup)%Z && (Z.of_nat k =? zup)%Z) = (zup =? Z.of_nat k)%Z).
  { rewrite (Z.eqb_sym zup). destruct (Z.ltb_spec (-1) zup); [reflexivity|lia]. }
  assert (B2 : ((-1 <? zdn)%Z && (Z.of_nat k =? zdn)%Z) = (zdn =? Z.of_nat k)%Z).
  { rewrite (Z.eqb_sym zdn). destruct (Z.ltb_spec (-1) zdn); [reflexivity|lia]. }
  assert (HX : forall z, z = Z.of_nat k -> heatx z T = e T) by (intros z ->; unfold heatx; rewrite Z.eqb_refl; reflexivity).
  assert (CX : forall z, z = Z.of_nat k -> cellx z T = c T) by (intros z ->; unfold cellx; rewrite Z.eqb_refl; reflexivity).
  pose proof (vis_cell zs Hz) as V.
  unfold dheat, wflux, dwater. cbv zeta. unfold th_block.
  destruct (Rlt_dec tp 0) as [S0|S0]; (destruct (Z.eqb_spec zup (Z.of_nat k)) as [E|E]; [|destruct (Z.eqb_spec zdn (Z.of_nat k)) as [F|F]]);
    eexists _, _, _, _, _; (split; [exact UW|]); (split; [apply (temp_half zup Zu)|]); (split; [apply (temp_half zdn Zd)|]);
    rewrite ?B1, ?B2; cbn [orb]; unfold lift; cbn [w_k w_kP w_kT w_h w_hP w_hT v_k v_kP v_kT v_h v_hP v_hT];
    unfold near_block, far_block, conduct, block_map, fl1, fbind; (split; [split; reflexivity|]);
    try rewrite !(HX zup E) in *; try rewrite !(CX zup E) in *; try rewrite !(HX zdn F) in *; try rewrite !(CX zdn F) in *; try rewrite (T1 E) in *; try rewrite (T1 F) in *;
    try (destruct (Z.eqb_spec zdn (Z.of_nat k)) as [F|F]; [congruence|]);
    unfold coeff; split; apply chop_opp_near; replace 0.5 with (/ 2) by lra; clear -V; field; exact V.
Qed.

Lemma temperature_column : forall up dn, at_side (csx T) bs zup up -> at_side (csx T) bs zdn dn ->
  let flux first x := fluxes first (th_flux (csx x) bs (hsx x) hb TP (TT x) zup zdn a) in
  exists dw de, has_derivative (flux true) T dw /\ has_derivative (flux false) T de /\
  forall d1 d2 tk g, exists w dup ddn x y,
    upwind_at (csx T) bs (hsx T) hb ts zs = Ok w
    /\ half_of (map e_drho_dT (hsx T)) zup = Ok dup /\ half_of (map e_drho_dT (hsx T)) zdn = Ok ddn
    /\ (let '(_, _, qa, qb) := th_block zup zdn tp (mean_density up dn) w (d1, d2, dup, ddn) k tk tq g in qa = Some x /\ qb = Some y)
    /\ let extra := coeff ((zup =? Z.of_nat k)%Z || (zdn =? Z.of_nat k)%Z) * (mean_density up dn * mobility (if Rlt_dec tp 0 then up else dn) * tk * (1 + e_drho_dT (e T) / 2 * g)) in
       Rabs (x - (dw - extra)) <= / 2 ^ 52 /\ Rabs (y - (de - extra * side_value (map e_h (hsx T)) hb zs)) <= / 2 ^ 52.
Proof.
  intros up dn Au Ad flux.
  assert (SD : forall z s, (0 <= z < Z.of_nat (length cs))%Z -> at_side (csx T) bs z s -> s = inl (cellx z T)).
  { intros z s Hz A. pose proof (at_cell z T Hz) as X. pose proof (side_at_spec _ _ _ _ A) as Y. unfold side_at in Y. destruct (Z.leb_spec 0 z); [|lia]. rewrite X in Y. cbn [bind] in Y. congruence. }
  pose proof (SD _ _ Zu Au) as ->. pose proof (SD _ _ Zd Ad) as ->. clear SD Au Ad.
  assert (M : mean_density (inl (cellx zup T)) (inl (cellx zdn T)) = den T) by (unfold den, mean_density, density; lra).
  assert (MB : mobility (if Rlt_dec tp 0 then inl (cellx zup T) else inl (cellx zdn T)) = c_Kr (cellx zs T) / c_vis (cellx zs T)) by (destruct (Rlt_dec tp 0); reflexivity).
  assert (H : side_value (map e_h (hsx T)) hb zs = e_h (heatx zs T)).
  { pose proof zs_in as Hz. unfold side_value. destruct (Z.leb_spec 0 zs); [|lia]. apply nth_error_nth. pose proof (at_heat zs T Hz) as A. unfold Fvtpf.at_ in A.
    destruct (Z.ltb_spec zs 0); [lia|]. rewrite nth_error_map, (rd_inv _ _ _ A). reflexivity. }
  exists dwater, dheat. split; [|split].
  - exists wflux. split; [|exact wflux_derive]. generalize flux_near. apply filter_imp. intros x E. unfold flux. rewrite E. reflexivity.
  - eexists. split; [|exact hflux_derive]. generalize flux_near. apply filter_imp. intros x E. unfold flux. rewrite E. reflexivity.
  - intros d1 d2 tk g. rewrite M, MB, H. exact (temperature_block d1 d2 tk g).
Qed.
End Temp.
