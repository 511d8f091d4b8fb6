(** Facts about the fluxes of the two-equation residuals. *)
From Coq Require Import Reals ZArith List Bool Arith Lia Lra.
From Coquelicot Require Import Coquelicot.
From Verif Require Import Prelude Arrays SpecFvtpf FvtpfSumProofs FvtpfAssemblyProofs Mpfao MpfaoTs SpecMpfaoTs MpfaoTsProofs Transport SpecTransport TransportProofs TransportExamples.
Import ListNotations.
Local Open Scope R_scope.

Lemma salinity_darcy : forall m cs bs TP GD qw,
  on_faces m cs bs (saline_water TP GD) qw ->
  (forall iv j v f a up dn, subface m iv j = Some (v, f, a) -> active v f = true -> at_side cs bs (f_up f) up -> at_side cs bs (f_dn f) dn ->
     let d := drive up dn (nth a TP 0) (nth a GD 0) in
     (d <> 0 -> (nth a TP 0 < 0 <-> d < 0)) /\ ~ dry_seepage (bc m) (Pref m) (if Rlt_dec d 0 then up else dn)) ->
  is_flux m cs bs TP GD qw.
Proof.
  intros m cs bs TP GD qw QW H iv j v f a up dn tp G E A Au Ad Et EG d s.
  destruct (H iv j v f a up dn E A Au Ad) as [H1 H2]. rewrite (nth_error_nth _ _ 0 Et), (nth_error_nth _ _ 0 EG) in H1, H2. fold d in H1, H2. fold s in H2.
  split; [intro C; contradiction|]. intros _. rewrite (QW iv j v f a up dn E A Au Ad). rewrite (nth_error_nth _ _ 0 Et), (nth_error_nth _ _ 0 EG). fold d.
  destruct (Req_dec d 0) as [Z|NZ]; [rewrite Z; ring|]. specialize (H1 NZ). unfold s.
  destruct (Rlt_dec tp 0) as [L|L], (Rlt_dec d 0) as [K|K]; try reflexivity; exfalso; tauto.
Qed.

Lemma eps_pos : 0 < / 2 ^ 52.
Proof. apply Rinv_0_lt_compat. apply pow_lt. lra. Qed.

Lemma th_darcy : forall up dn TP GD zu zd a qw qd, nth a GD 0 = 0 -> th_water TP up dn zu zd a qw -> darcy TP GD up dn zu zd a qd ->
  Rabs (qw - qd) <= Rabs (mean_density up dn) * Rabs (mobility (if Rlt_dec (nth a TP 0) 0 then up else dn)) * / 2 ^ 52.
Proof.
  intros up dn TP GD zu zd a qw qd G W D. unfold th_water in W. unfold darcy, drive in D. rewrite G in D. set (tp := nth a TP 0) in *.
  replace (tp + mean_density up dn * 0) with tp in D by ring. subst qw qd. unfold rounded.
  destruct (Rlt_dec (Rabs tp) (/ 2 ^ 52)) as [S|S].
  - replace (- mean_density up dn * mobility (if Rlt_dec 0 0 then up else dn) * 0 - - mean_density up dn * mobility (if Rlt_dec tp 0 then up else dn) * tp)
      with (mean_density up dn * mobility (if Rlt_dec tp 0 then up else dn) * tp) by ring.
    rewrite !Rabs_mult. apply Rmult_le_compat_l; [apply Rmult_le_pos; apply Rabs_pos|]. left. exact S.
  - rewrite Rminus_diag_eq by reflexivity. rewrite Rabs_R0. apply Rmult_le_pos; [apply Rmult_le_pos; apply Rabs_pos|]. left. exact eps_pos.
Qed.

Lemma th_ghosts : forall m n N nb cs bs hs hb TP TT du u,
  good_mesh m n N nb -> good_state m N nb cs bs TP TT -> length hs = N -> length hb = nb ->
  length du = (2 * n)%nat -> (n < N)%nat -> IFunction_TH m cs bs hs hb TP TT du u n = UB.
Proof.
  intros m n N nb cs bs hs hb TP TT du u GM GS Lh Lb Ld Hn. unfold IFunction_TH.
  destruct (on_faces_exists m cs bs (fun up dn zup zdn a => - mean_density up dn * mobility (if Rlt_dec (rounded (nth a TP 0)) 0 then up else dn) * rounded (nth a TP 0))) as [qw QW].
  destruct (on_faces_exists m cs bs (fun up dn zup zdn a => - mean_density up dn * mobility (if Rlt_dec (rounded (nth a TP 0)) 0 then up else dn) * rounded (nth a TP 0) * side_value (map e_h hs) hb (if Rlt_dec (rounded (nth a TP 0)) 0 then zup else zdn)
      - rounded (nth a TT 0))) as [qe QE].
  rewrite (vertices2_zero m n N nb GM _ qw qe (th_flux_ok m n N nb cs bs hs hb TP TT GM GS Lh Lb qw qe QW QE)). cbn [bind].
  rewrite (gm_rocks _ _ _ _ GM). rewrite unpack_short by lia. reflexivity.
Qed.

Lemma energy_flux : forall m cs bs hs hb TP TT qw qe iv j v f a up dn,
  on_faces m cs bs (th_water TP) qw -> on_faces m cs bs (th_energy hs hb TP TT) qe ->
  subface m iv j = Some (v, f, a) -> active v f = true -> at_side cs bs (f_up f) up -> at_side cs bs (f_dn f) dn ->
  0 <= density up -> 0 <= density dn -> 0 <= mobility up -> 0 <= mobility dn ->
  exists h, (0 < qw iv j -> h = side_value (map e_h hs) hb (f_up f)) /\ (qw iv j < 0 -> h = side_value (map e_h hs) hb (f_dn f))
    /\ qe iv j = qw iv j * h - rounded (nth a TT 0).
Proof.
  intros m cs bs hs hb TP TT qw qe iv j v f a up dn QW QE E A Au Ad Du Dd Mu Md.
  rewrite (QE iv j v f a up dn E A Au Ad), (QW iv j v f a up dn E A Au Ad). cbv zeta. set (tp := rounded (nth a TP 0)).
  exists (side_value (map e_h hs) hb (if Rlt_dec tp 0 then f_up f else f_dn f)).
  assert (D : 0 <= mean_density up dn) by (unfold mean_density; lra).
  destruct (Rlt_dec tp 0) as [L|L].
  - split; [reflexivity|]. split; [|reflexivity]. intro C. exfalso. pose proof (Rmult_le_pos _ _ (Rmult_le_pos _ _ D Mu) (Rlt_le _ _ (Ropp_0_gt_lt_contravar _ L))). nra.
  - split; [|split; reflexivity]. intro C. exfalso. assert (0 <= tp) as T by lra. pose proof (Rmult_le_pos _ _ (Rmult_le_pos _ _ D Md) T). nra.
Qed.

Lemma derive_water : forall (r S : R -> R) por V t r' S', is_derive r t r' -> is_derive S t S' ->
  is_derive (fun s => r s * por * S s * V) t ((r' * S t + r t * S') * por * V).
Proof.
  intros r S por V t r' S' Hr HS. auto_derive; [repeat split; [exists r'; exact Hr|exists S'; exact HS]|].
  replace (Derive (fun x : R => r x) t) with r' by (symmetry; exact (is_derive_unique r t r' Hr)). replace (Derive (fun x : R => S x) t) with S' by (symmetry; exact (is_derive_unique S t S' HS)). ring.
Qed.
Lemma derive_energy : forall (r S u T : R -> R) por V k t r' S' u' T', is_derive r t r' -> is_derive S t S' -> is_derive u t u' -> is_derive T t T' ->
  is_derive (fun s => (r s * por * S s * u s + k * T s) * V) t (((r' * S t + r t * S') * por * u t + r t * por * S t * u' + k * T') * V).
Proof.
  intros r S u T por V k t r' S' u' T' Hr HS Hu HT. auto_derive; [repeat split; [exists r'; exact Hr|exists S'; exact HS|exists u'; exact Hu|exists T'; exact HT]|].
  replace (Derive (fun x : R => r x) t) with r' by (symmetry; exact (is_derive_unique r t r' Hr)). replace (Derive (fun x : R => S x) t) with S' by (symmetry; exact (is_derive_unique S t S' HS)). replace (Derive (fun x : R => u x) t) with u' by (symmetry; exact (is_derive_unique u t u' Hu)). replace (Derive (fun x : R => T x) t) with T' by (symmetry; exact (is_derive_unique T t T' HT)). ring.
Qed.

Lemma storage_rates : forall (c : R -> cell) (e : R -> heat) (T : R -> R) k t p' t',
  is_derive (fun s => c_rho (c s)) t (c_drho (c t) * p' + e_drho_dT (e t) * t') ->
  is_derive (fun s => c_S (c s)) t (c_dS (c t) * p' + e_dS_dT (e t) * t') ->
  is_derive (fun s => e_u (e s)) t (e_du_dP (e t) * p' + e_du_dT (e t) * t') ->
  is_derive T t t' -> (forall s, e_rho_soil (e s) = e_rho_soil (e t)) -> (forall s, e_c_soil (e s) = e_c_soil (e t)) ->
  is_derive (fun s => stored (c s) k) t (water_rate (c t) (e t) k p' t') /\
  is_derive (fun s => stored_energy (c s) (e s) k (T s)) t (energy_rate (c t) (e t) k p' t').
Proof.
  intros c e T k t p' t' Hr HS Hu HT H1 H2. split.
  - exact (derive_water _ _ (k_por k) (k_vol k) t _ _ Hr HS).
  - unfold stored_energy. apply (is_derive_ext (fun s => (c_rho (c s) * k_por k * c_S (c s) * e_u (e s) + e_rho_soil (e t) * e_c_soil (e t) * (1 - k_por k) * T s) * k_vol k)).
    + intro s. rewrite (H1 s), (H2 s). reflexivity.
    + exact (derive_energy _ _ _ T (k_por k) (k_vol k) (e_rho_soil (e t) * e_c_soil (e t) * (1 - k_por k)) t _ _ _ _ Hr HS Hu HT).
Qed.

Lemma hot_example : exists r, IFunction_TH pair_mesh [fluid 1; fluid 1] [] [mkHeat 5 0 0 0 0 0 0 0 0; cold] [] [-2; 0; 0; 0] [0; 0; 0; 0] [0; 0; 0; 0] [0; 0; 0; 0] 2 = Ok r
  /\ nth_error r 1 = Some (Some 10) /\ nth_error r 3 = Some (Some (-10)).
Proof.
  assert (P : / 2 ^ 52 <= 1) by (rewrite <- Rinv_1; apply Rinv_le_contravar; [lra|]; apply pow_R1_Rle; lra).
  assert (R2 : rounded (-2) = -2) by (unfold rounded; rewrite Rabs_left by lra; destruct (Rlt_dec _ _); lra).
  assert (R0 : rounded 0 = 0) by (unfold rounded; destruct (Rlt_dec _ _); reflexivity).
  destruct (th_ok pair_mesh 2 2 0 [fluid 1; fluid 1] [] [mkHeat 5 0 0 0 0 0 0 0 0; cold] [] [-2; 0; 0; 0] [0; 0; 0; 0] pair_good (pair_state 1 1 (-2) 0) eq_refl eq_refl (fun _ _ => 2) (fun _ _ => 10))
    with (du := [0; 0; 0; 0]) (u := [0; 0; 0; 0]) as [r [E [_ H]]].
  - apply pair_faces. unfold th_water, mean_density, mobility; simpl nth. rewrite R2. destruct (Rlt_dec (-2) 0); [|lra]. simpl. field.
  - apply pair_faces. unfold th_energy, mean_density, mobility; simpl nth. rewrite R2, R0. destruct (Rlt_dec (-2) 0); [|lra]. unfold side_value. simpl. field.
  - simpl; lia.
  - simpl; lia.
  - intros [|[|i]] Hi; [| |lia]; (split; [intros; lia|reflexivity]).
  - exists r. split; [exact E|]. destruct (H 0%nat ltac:(lia)) as [_ A]. destruct (H 1%nat ltac:(lia)) as [_ B]. split; [etransitivity; [exact A|]|etransitivity; [exact B|]]; unfold outflow, all_subfaces, orientation, term2, term, energy_rate; simpl; do 2 f_equal; ring.
Qed.
