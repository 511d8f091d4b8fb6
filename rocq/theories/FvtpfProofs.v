From Coq Require Import Reals ZArith List Bool Arith Lia Lra.
From Coquelicot Require Import Coquelicot.
From Verif Require Import Prelude Arrays Fvtpf SpecFvtpf.
Import ListNotations.
Local Open Scope R_scope.

(** ** Geometry *)
Lemma inverse_sum_ok : forall u k, positive3 k -> nonzero3 u ->
  exists s, inverse_sum u k = Some s /\ 0 < s /\ directional u k = 1 / s.
Proof.
  intros [[u0 u1] u2] [[k0 k1] k2] [H0 [H1 H2]] Hu. simpl in Hu. unfold inverse_sum.
  rewrite !fdiv_ok by lra. simpl fbind.
  exists (0 + u0 ^ 2 / k0 + u1 ^ 2 / k1 + u2 ^ 2 / k2). split; [reflexivity|].
  assert (P : forall u k, 0 < k -> 0 <= u ^ 2 / k) by (intros u k Hk; apply Rmult_le_pos; [nra|left; apply Rinv_0_lt_compat; exact Hk]).
  assert (Q : forall u k, 0 < k -> u <> 0 -> 0 < u ^ 2 / k) by (intros u k Hk Hu'; apply Rmult_lt_0_compat; [nra|apply Rinv_0_lt_compat; exact Hk]).
  pose proof (P u0 k0 H0). pose proof (P u1 k1 H1). pose proof (P u2 k2 H2). split.
  - destruct Hu as [Hu|[Hu|Hu]]; [pose proof (Q u0 k0 H0 Hu)|pose proof (Q u1 k1 H1 Hu)|pose proof (Q u2 k2 H2 Hu)]; lra.
  - unfold directional. f_equal. field. lra.
Qed.

Lemma directional_pos : forall u k, positive3 k -> nonzero3 u -> 0 < directional u k.
Proof.
  intros u k Hk Hu. destruct (inverse_sum_ok u k Hk Hu) as [s [_ [Hs ->]]]. apply Rdiv_lt_0_compat; lra.
Qed.

Lemma face_value_ok : forall u du dd ku kd, positive3 ku -> positive3 kd -> nonzero3 u -> 0 < du -> 0 < dd ->
  face_value u du dd ku kd = Some (directional u ku * directional u kd / (du * directional u kd + dd * directional u ku)).
Proof.
  intros u du dd ku kd Hku Hkd Hu Hdu Hdd. unfold face_value.
  pose proof (directional_pos u ku Hku Hu) as Pu. pose proof (directional_pos u kd Hkd Hu) as Pd.
  destruct (inverse_sum_ok u ku Hku Hu) as [s [-> [Hs E]]]. destruct (inverse_sum_ok u kd Hkd Hu) as [s' [-> [Hs' E']]].
  simpl fbind. rewrite !fdiv_ok by lra. simpl fbind. rewrite <- E, <- E'. apply fdiv_ok.
  assert (0 < du * directional u kd) by (apply Rmult_lt_0_compat; assumption).
  assert (0 < dd * directional u ku) by (apply Rmult_lt_0_compat; assumption). lra.
Qed.

Lemma face_value_mean_proof : forall u du dd ku kd, positive3 ku -> positive3 kd -> nonzero3 u -> 0 < du -> 0 < dd ->
  exists v, face_value u du dd ku kd = Some v /\ 0 < v
    /\ face_value u dd du kd ku = Some v
    /\ Rmin (directional u ku) (directional u kd) <= v * (du + dd) <= Rmax (directional u ku) (directional u kd)
    /\ (directional u ku = directional u kd -> v * (du + dd) = directional u ku).
Proof.
  intros u du dd ku kd Hku Hkd Hu Hdu Hdd.
  pose proof (directional_pos u ku Hku Hu) as Pu. pose proof (directional_pos u kd Hkd Hu) as Pd.
  rewrite (face_value_ok u du dd ku kd), (face_value_ok u dd du kd ku) by assumption.
  set (a := directional u ku) in *. set (b := directional u kd) in *. clearbody a b.
  assert (X : 0 < du * b) by (apply Rmult_lt_0_compat; assumption).
  assert (Y : 0 < dd * a) by (apply Rmult_lt_0_compat; assumption).
  exists (a * b / (du * b + dd * a)). split; [reflexivity|]. split; [apply Rdiv_lt_0_compat; nra|].
  split; [f_equal; field; lra|].
  replace (a * b / (du * b + dd * a) * (du + dd)) with (a * b * (du + dd) / (du * b + dd * a)) by (field; lra).
  split.
  - split.
    + apply Rle_div_r; [lra|]. unfold Rmin. destruct (Rle_dec a b); nra.
    + apply Rle_div_l; [lra|]. unfold Rmax. destruct (Rle_dec a b); nra.
  - intros <-. field. nra.
Qed.

Lemma upweight_ok : forall g f, 0 < f_dist_up f -> 0 < f_dist_dn f ->
  snd (CalculateDistances g f) = Some (f_dist_dn f / (f_dist_up f + f_dist_dn f)).
Proof.
  intros g f Hu Hd. unfold CalculateDistances. simpl snd. rewrite fdiv_ok by lra. simpl fbind.
  replace ((f_dist_up f + f_dist_dn f) * (f_dist_up f / (f_dist_up f + f_dist_dn f))) with (f_dist_up f) by (field; lra).
  rewrite fdiv_ok by lra. f_equal. field. lra.
Qed.

Lemma gt_true : forall a b, gt a b = true <-> b < a.
Proof. intros a b. unfold gt. destruct (Rlt_dec b a); split; intros; (discriminate || lra || reflexivity). Qed.
Lemma gt_false : forall a b, gt a b = false <-> a <= b.
Proof. intros a b. unfold gt. destruct (Rlt_dec b a); split; intros; (discriminate || lra || reflexivity). Qed.
Lemma lt_true : forall a b, lt a b = true <-> a < b.
Proof. intros a b. unfold lt. destruct (Rlt_dec a b); split; intros; (discriminate || lra || reflexivity). Qed.
Lemma lt_false : forall a b, lt a b = false <-> b <= a.
Proof. intros a b. unfold lt. destruct (Rlt_dec a b); split; intros; (discriminate || lra || reflexivity). Qed.
Lemma ge_true : forall a b, ge a b = true <-> b <= a.
Proof. intros a b. unfold ge. destruct (Rle_dec b a); split; intros; (discriminate || lra || reflexivity). Qed.
Lemma ge_false : forall a b, ge a b = false <-> a < b.
Proof. intros a b. unfold ge. destruct (Rle_dec b a); split; intros; (discriminate || lra || reflexivity). Qed.
Lemma wet_true : forall a b, gt a eps || gt b eps = true <-> (eps < a \/ eps < b).
Proof. intros a b. rewrite orb_true_iff, !gt_true. tauto. Qed.

(** The weighted density of the code is the face density. *)
Lemma density_ok : forall du dd S_up S_dn ru rd, 0 < du -> 0 < dd ->
  exists w, 0 <= w <= 1 /\
   set_weight S_up S_dn (Some (dd / (du + dd))) = Some w
   /\ w * ru + (1 - w) * rd = face_density du dd S_up S_dn ru rd.
Proof.
  intros du dd S_up S_dn ru rd Hu Hd. unfold face_density, set_weight, lt. change threshold with eps.
  destruct (Rlt_dec S_up eps); [exists 0; split; [lra|]; split; [reflexivity|lra]|].
  destruct (Rlt_dec S_dn eps); [exists 1; split; [lra|]; split; [reflexivity|lra]|].
  exists (dd / (du + dd)). split; [|split; [reflexivity|field; lra]].
  split; [apply Rmult_le_pos; [lra|left; apply Rinv_0_lt_compat; lra]|].
  apply Rle_div_l; lra.
Qed.

Lemma face_density_pos : forall du dd S_up S_dn ru rd, 0 < du -> 0 < dd -> 0 < ru -> 0 < rd ->
  0 < face_density du dd S_up S_dn ru rd.
Proof.
  intros. unfold face_density. destruct (Rlt_dec S_up threshold); [assumption|]. destruct (Rlt_dec S_dn threshold); [assumption|].
  apply Rdiv_lt_0_compat; nra.
Qed.

(** Value of the interior flux. *)
Lemma richards_value : forall g f Dq up dn Res,
  0 < f_dist_up f -> 0 < f_dist_dn f -> 0 < c_vis up -> 0 < c_vis dn ->
  (eps < c_Kr up \/ eps < c_Kr dn) ->
  let arm := dot (gravity g) (f_unit f) * (f_dist_up f + f_dist_dn f) in
  let rho := face_density (f_dist_up f) (f_dist_dn f) (c_S up) (c_S dn) (c_rho up) (c_rho dn) in
  let d := potential_drop (c_P up) (c_P dn) rho arm in
  richards_flux (fst (CalculateDistances g f)) (snd (CalculateDistances g f)) (Some Dq) (f_area f) up dn Res
   = Some (Dq * (if Rle_dec 0 d then c_Kr up / c_vis up else c_Kr dn / c_vis dn) * d * f_area f * rho).
Proof.
  intros g f Dq up dn Res Hu Hd Vu Vd W arm rho d. unfold richards_flux. rewrite (proj2 (wet_true _ _) W). change (fst (CalculateDistances g f)) with arm.
  rewrite upweight_ok by assumption.
  destruct (density_ok (f_dist_up f) (f_dist_dn f) (c_S up) (c_S dn) (c_rho up) (c_rho dn) Hu Hd) as [w [_ [-> E]]].
  simpl fbind. rewrite E. fold rho. fold (potential_drop (c_P up) (c_P dn) rho arm). fold d.
  unfold ge. destruct (Rle_dec 0 d); cbv iota; rewrite fdiv_ok by lra; simpl fbind; f_equal; ring.
Qed.

Lemma bc_value : forall g f Dq up dn Res,
  0 < f_dist_up f -> 0 < f_dist_dn f -> 0 < b_vis up -> 0 < c_vis dn ->
  (eps < b_Kr up \/ eps < c_Kr dn) ->
  let arm := dot (gravity g) (f_unit f) * (f_dist_up f + f_dist_dn f) in
  let rho := face_density (f_dist_up f) (f_dist_dn f) (b_S up) (c_S dn) (b_rho up) (c_rho dn) in
  let d := potential_drop (b_P up) (c_P dn) rho arm in
  bc_flux (fst (CalculateDistances g f)) (snd (CalculateDistances g f)) (Some Dq) (f_area f) up dn Res
   = Some (Dq * (if Rle_dec 0 d then b_Kr up / b_vis up else c_Kr dn / c_vis dn) * d * f_area f * rho).
Proof.
  intros g f Dq up dn Res Hu Hd Vu Vd W arm rho d. unfold bc_flux. rewrite (proj2 (wet_true _ _) W). change (fst (CalculateDistances g f)) with arm.
  rewrite upweight_ok by assumption.
  destruct (density_ok (f_dist_up f) (f_dist_dn f) (b_S up) (c_S dn) (b_rho up) (c_rho dn) Hu Hd) as [w [_ [-> E]]].
  simpl fbind. rewrite E. fold rho. fold (potential_drop (b_P up) (c_P dn) rho arm). fold d.
  unfold ge. destruct (Rle_dec 0 d); cbv iota; rewrite fdiv_ok by lra; simpl fbind; f_equal; ring.
Qed.

(** Seepage: as the boundary flux, except that an inflow is blocked. *)
Lemma seepage_value : forall g f Dq up dn Res,
  0 < f_dist_up f -> 0 < f_dist_dn f -> 0 < b_vis up -> 0 < c_vis dn ->
  (eps < b_Kr up \/ eps < c_Kr dn) ->
  let arm := dot (gravity g) (f_unit f) * (f_dist_up f + f_dist_dn f) in
  let rho := face_density (f_dist_up f) (f_dist_dn f) (b_S up) (c_S dn) (b_rho up) (c_rho dn) in
  let d := potential_drop (b_P up) (c_P dn) rho arm in
  seepage_flux (Pref g) (fst (CalculateDistances g f)) (snd (CalculateDistances g f)) (Some Dq) (f_area f) up dn Res
   = Some (if Rlt_dec 0 d then if Rlt_dec (b_P up - Pref g) threshold then 0
                               else Dq * (b_Kr up / b_vis up) * d * f_area f * rho
           else Dq * (c_Kr dn / c_vis dn) * d * f_area f * rho).
Proof.
  intros g f Dq up dn Res Hu Hd Vu Vd W arm rho d. unfold seepage_flux. rewrite (proj2 (wet_true _ _) W). change (fst (CalculateDistances g f)) with arm.
  rewrite upweight_ok by assumption.
  destruct (density_ok (f_dist_up f) (f_dist_dn f) (b_S up) (c_S dn) (b_rho up) (c_rho dn) Hu Hd) as [w [_ [-> E]]].
  simpl fbind. rewrite E. fold rho. fold (potential_drop (b_P up) (c_P dn) rho arm). fold d.
  change threshold with eps. unfold gt, ge, lt. destruct (Rlt_dec 0 d).
  - destruct (Rlt_dec (b_P up - Pref g) eps); simpl andb; cbv iota.
    + destruct (Rle_dec 0 0); [|lra]. rewrite fdiv_ok by lra; simpl fbind; f_equal; ring.
    + destruct (Rle_dec 0 d); [|lra]. rewrite fdiv_ok by lra; simpl fbind; f_equal; ring.
  - simpl andb; cbv iota. destruct (Rle_dec 0 d).
    + assert (d = 0) as -> by lra. rewrite fdiv_ok by lra; simpl fbind; f_equal; ring.
    + rewrite fdiv_ok by lra; simpl fbind; f_equal; ring.
Qed.

Lemma flow_direction_proof : forall g f Dq up dn Res,
  0 < f_dist_up f -> 0 < f_dist_dn f -> 0 < f_area f -> 0 < Dq ->
  0 < c_vis up -> 0 < c_vis dn -> 0 < c_rho up -> 0 < c_rho dn -> 0 <= c_Kr up -> 0 <= c_Kr dn ->
  (eps < c_Kr up \/ eps < c_Kr dn) ->
  let arm := dot (gravity g) (f_unit f) * (f_dist_up f + f_dist_dn f) in
  let rho := face_density (f_dist_up f) (f_dist_dn f) (c_S up) (c_S dn) (c_rho up) (c_rho dn) in
  let d := potential_drop (c_P up) (c_P dn) rho arm in
  exists v, richards_flux (fst (CalculateDistances g f)) (snd (CalculateDistances g f)) (Some Dq) (f_area f) up dn Res = Some v
    /\ (d = 0 -> v = 0)
    /\ (0 < d -> 0 <= v /\ (0 < c_Kr up -> 0 < v))
    /\ (d < 0 -> v <= 0 /\ (0 < c_Kr dn -> v < 0)).
Proof.
  intros g f Dq up dn Res Hu Hd A D Vu Vd Ru Rd_ Ku Kd W arm rho d.
  rewrite richards_value by assumption. fold arm. fold rho. fold d. eexists. split; [reflexivity|].
  assert (R0 : 0 < rho) by (apply face_density_pos; assumption).
  assert (Q : 0 < Dq * f_area f * rho) by (repeat apply Rmult_lt_0_compat; assumption).
  assert (M : forall m, Dq * m * d * f_area f * rho = Dq * f_area f * rho * (m * d)) by (intro; ring).
  rewrite M. set (q := Dq * f_area f * rho) in *. clearbody q.
  assert (Mu : 0 <= c_Kr up / c_vis up) by (apply Rmult_le_pos; [assumption|left; apply Rinv_0_lt_compat; assumption]).
  assert (Md : 0 <= c_Kr dn / c_vis dn) by (apply Rmult_le_pos; [assumption|left; apply Rinv_0_lt_compat; assumption]).
  split; [|split].
  - intros ->. ring.
  - intro Hp. destruct (Rle_dec 0 d); [|lra]. split; [apply Rmult_le_pos; [lra|nra]|].
    intro Hk. apply Rmult_lt_0_compat; [lra|]. apply Rmult_lt_0_compat; [|lra]. apply Rdiv_lt_0_compat; assumption.
  - intro Hn. destruct (Rle_dec 0 d); [lra|]. assert (c_Kr dn / c_vis dn * d <= 0) by nra. split; [nra|].
    intro Hk. assert (0 < c_Kr dn / c_vis dn) by (apply Rdiv_lt_0_compat; assumption). 
    assert (c_Kr dn / c_vis dn * d < 0) by nra. nra.
Qed.

Lemma seepage_no_inflow_proof : forall g f Dq up dn Res,
  0 < f_dist_up f -> 0 < f_dist_dn f -> 0 < f_area f -> 0 < Dq ->
  0 < b_vis up -> 0 < c_vis dn -> 0 < b_rho up -> 0 < c_rho dn -> 0 <= b_Kr up -> 0 <= c_Kr dn ->
  (eps < b_Kr up \/ eps < c_Kr dn) -> b_P up <= Pref g ->
  exists v, seepage_flux (Pref g) (fst (CalculateDistances g f)) (snd (CalculateDistances g f)) (Some Dq) (f_area f) up dn Res = Some v
    /\ v <= 0
    /\ (potential_drop (b_P up) (c_P dn) (face_density (f_dist_up f) (f_dist_dn f) (b_S up) (c_S dn) (b_rho up) (c_rho dn))
          (dot (gravity g) (f_unit f) * (f_dist_up f + f_dist_dn f)) < 0 -> 0 < c_Kr dn -> v < 0).
Proof.
  intros g f Dq up dn Res Hu Hd A D Vu Vd Ru Rd_ Ku Kd W HP.
  rewrite seepage_value by assumption. 
  set (rho := face_density _ _ _ _ _ _). set (arm := dot _ _ * _). set (d := potential_drop _ _ _ _). eexists. split; [reflexivity|].
  assert (R0 : 0 < rho) by (apply face_density_pos; assumption).
  assert (T : 0 < threshold) by (unfold threshold; lra).
  destruct (Rlt_dec 0 d).
  - destruct (Rlt_dec (b_P up - Pref g) threshold); [|lra]. split; [lra|intros; lra].
  - assert (Md : 0 <= c_Kr dn / c_vis dn) by (apply Rmult_le_pos; [assumption|left; apply Rinv_0_lt_compat; assumption]).
    assert (Q : 0 < Dq * f_area f * rho) by (repeat apply Rmult_lt_0_compat; assumption).
    replace (Dq * (c_Kr dn / c_vis dn) * d * f_area f * rho) with (Dq * f_area f * rho * (c_Kr dn / c_vis dn * d)) by ring.
    set (q := Dq * f_area f * rho) in *. clearbody q. assert (c_Kr dn / c_vis dn * d <= 0) by nra. split; [nra|].
    intros Hn Hk. assert (0 < c_Kr dn / c_vis dn) by (apply Rdiv_lt_0_compat; assumption).
    assert (c_Kr dn / c_vis dn * d < 0) by nra. nra.
Qed.
