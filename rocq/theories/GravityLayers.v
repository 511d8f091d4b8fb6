(** Gravity terms of single faces: two permeabilities, tiny permeabilities, two-point fluxes. *)
From Coq Require Import Reals List Bool Arith ZArith Lia Lra.
From Verif Require Import Prelude Arrays SpecFvtpf Geom SpecGeom GeomProofs Mpfao SpecMpfao MpfaoProofs Subcell SpecSubcell SubcellProofs SubcellStoreProofs SubcellMoreProofs Transport UGrid Gravity SpecGravity GravityProofs GravityMoreProofs.
Import ListNotations.
Local Open Scope R_scope.

Lemma unit_square : forall a b u, unit_between a b u -> dot u u = 1.
Proof.
  intros a b u [Hne E]. set (L := length3 (vsub b a)) in *.
  assert (LL : L * L = dot (vsub b a) (vsub b a)) by (unfold L, length3; apply sqrt_sqrt, dot_pos).
  assert (L0 : L <> 0).
  { intros Z. apply Hne. rewrite Z in E. destruct a as [a0 b0 c0], b as [d0 e0 f0]. unfold vsub, vscale in E. cbn [vx vy vz] in E.
    injection E as X1 X2 X3. f_equal; lra. }
  rewrite E in LL. replace (dot (vscale L u) (vscale L u)) with (L * L * dot u u) in LL by (unfold dot, vscale; cbn [vx vy vz]; ring).
  apply (Rmult_eq_reg_l (L * L)); [lra|]. apply Rmult_integral_contrapositive_currified; exact L0.
Qed.

Section Two.
Variable m : gmesh.
Let g := q_geo m.
(** The face [f] between the cells [a] and [b], with the permeabilities kA and kB. *)
Variables (f a b : nat) (xA xB xf u n : v3) (kA kB : R).
Hypothesis Hc : nth_error (g_fcells g) f = Some (Z.of_nat a, Z.of_nat b).
Hypothesis HA : nth_error (g_cc g) a = Some xA.
Hypothesis HB : nth_error (g_cc g) b = Some xB.
Hypothesis Hf : nth_error (g_fc g) f = Some xf.
Hypothesis Hn : nth_error (g_fn g) f = Some n.
Hypothesis KA : nth_error (q_K m) a = Some (isotropic kA).
Hypothesis KB : nth_error (q_K m) b = Some (isotropic kB).
Hypothesis Hu : unit_between xA xB u.
Hypothesis PA : 0 < kA.
Hypothesis PB : 0 < kB.
Let hA := length3 (vsub xA xf).
Let hB := length3 (vsub xB xf).
Definition mean := / (hA / (hA + hB) * / kA + (1 - hA / (hA + hB)) * / kB).

Lemma two_sides : sides g f xA xB.
Proof.
  exists (Z.of_nat a, Z.of_nat b). split; [exact Hc|]. cbn [fst snd]. split; [lia|].
  split; left; (split; [lia|]); rewrite Nat2Z.id; assumption.
Qed.
Lemma two_tensors : UpAndDownTensors m f = Ok (isotropic kA, isotropic kB).
Proof.
  unfold UpAndDownTensors. fold g. rewrite (rd_some _ _ _ Hc). cbn [bind fst snd].
  destruct (Z.ltb_spec (Z.of_nat a) 0); [lia|]. cbn [andb].
  destruct (Z.leb_spec 0 (Z.of_nat a)); [|lia]. destruct (Z.leb_spec 0 (Z.of_nat b)); [|lia].
  rewrite (rdz_some (q_K m) (Z.of_nat a) (isotropic kA)), (rdz_some (q_K m) (Z.of_nat b) (isotropic kB)); try lia; try (rewrite Nat2Z.id; assumption).
  reflexivity.
Qed.
Lemma distances : 0 <= hA /\ 0 <= hB /\ 0 < hA + hB.
Proof. split; [apply sqrt_pos|]. split; [apply sqrt_pos|]. apply triangle_zero. exact (proj1 Hu). Qed.
Lemma mean_pos : 0 < hA / (hA + hB) * / kA + (1 - hA / (hA + hB)) * / kB.
Proof.
  destruct distances as [D1 [D2 D3]].
  replace (hA / (hA + hB) * / kA + (1 - hA / (hA + hB)) * / kB) with ((hA * kB + hB * kA) / ((hA + hB) * kA * kB)) by (field; lra).
  apply Rdiv_lt_0_compat; [|apply Rmult_lt_0_compat; [apply Rmult_lt_0_compat|]; lra].
  destruct (Rle_lt_or_eq_dec 0 hA D1) as [Z|Z].
  - pose proof (Rmult_lt_0_compat _ _ Z PB). pose proof (Rmult_le_pos _ _ D2 (Rlt_le _ _ PA)). lra.
  - assert (0 < hB) as Z' by lra. pose proof (Rmult_lt_0_compat _ _ Z' PA). rewrite <- Z. lra.
Qed.
Lemma two_value : FaceValueMPFAO m f = Ok (Some (dot n (mat_vec (cut (isotropic mean)) u))).
Proof.
  unfold FaceValueMPFAO. rewrite (unit_some m f xA xB u two_sides Hu). cbn [bind].
  unfold FaceTensor. destruct (weight_some m f xA xB xf two_sides (proj1 Hu) Hf) as [d [Ed Ew]]. rewrite Ed. cbn [bind].
  rewrite two_tensors. cbn [bind fst snd]. rewrite Ew, iso_harmonic; [|lra|lra|pose proof mean_pos; unfold hA, hB in *; lra].
  fold g. rewrite (rd_some _ _ _ Hn). cbn [bind]. fold hA hB. fold mean. do 2 f_equal.
  unfold DotProduct, times, dot, mat_vec. cbn [vx vy vz]. ring.
Qed.
Lemma mean_series : 0 < hA -> 0 < hB -> forall pA pB, series kA kB hA hB pA pB (mean * (pA - pB) / (hA + hB)).
Proof.
  intros D1 D2 pA pB. unfold series, mean. pose proof mean_pos as MP.
  assert (N : hA * kB + hB * kA <> 0).
  { pose proof (Rmult_lt_0_compat _ _ D1 PB). pose proof (Rmult_lt_0_compat _ _ D2 PA). lra. }
  exists ((kA * pA / hA + kB * pB / hB) / (kA / hA + kB / hB)).
  split; field; repeat split; try lra; intros Z; apply N; lra.
Qed.
(** A weighted harmonic mean lies between the two. *)
Lemma mean_bound : Rmin kA kB <= mean.
Proof.
  destruct distances as [D1 [D2 D3]]. pose proof mean_pos as MP. unfold mean.
  set (w := hA / (hA + hB)) in *.
  assert (W0 : 0 <= w) by (apply Rle_mult_inv_pos; assumption).
  assert (W1 : 0 <= 1 - w). { replace (1 - w) with (hB / (hA + hB)) by (unfold w; field; lra). apply Rle_mult_inv_pos; assumption. }
  assert (M0 : 0 < Rmin kA kB) by (apply Rmin_pos; assumption).
  assert (I1 : / kA <= / Rmin kA kB) by (apply Rinv_le_contravar; [exact M0|apply Rmin_l]).
  assert (I2 : / kB <= / Rmin kA kB) by (apply Rinv_le_contravar; [exact M0|apply Rmin_r]).
  rewrite <- (Rinv_involutive (Rmin kA kB)) by lra. apply Rinv_le_contravar; [exact MP|].
  pose proof (Rmult_le_compat_l _ _ _ W0 I1). pose proof (Rmult_le_compat_l _ _ _ W1 I2). lra.
Qed.
Lemma iso_small : forall k, step <= k -> not_small (isotropic k).
Proof. intros k Hk x Hx. unfold entries_of, isotropic in Hx. simpl in Hx. decompose [or] Hx; subst; auto. contradiction. Qed.
Lemma iso_vec : forall k x y, dot x (mat_vec (isotropic k) y) = k * dot x y.
Proof. intros k x y. unfold dot, mat_vec, isotropic. cbn [m0 m1 m2 m3_ m4 m5 m6 m7 m8 vx vy vz]. ring. Qed.

Theorem layers_proof : 0 < hA -> 0 < hB -> step <= kA -> step <= kB ->
  exists k, FaceValueMPFAO m f = Ok (Some (k * dot n u)) /\
    forall pA pB, series kA kB hA hB pA pB (k * (pA - pB) / (hA + hB)).
Proof.
  intros D1 D2 SA SB. exists mean. split; [|apply mean_series; assumption].
  rewrite two_value, cut_id.
  - rewrite iso_vec. reflexivity.
  - apply iso_small. apply Rle_trans with (Rmin kA kB); [apply Rmin_glb; assumption|apply mean_bound].
Qed.
Lemma along_iso : forall k, 0 < k -> along u (isotropic k) = Some k.
Proof.
  intros k Hk. pose proof (unit_square _ _ _ Hu) as U. unfold along, isotropic, fl1. cbn [m0 m4 m8].
  rewrite !(fdiv_ok _ k) by lra. cbn [fbind]. unfold dot in U.
  replace (0 + vx u ^ 2 / k + vy u ^ 2 / k + vz u ^ 2 / k) with (/ k).
  - rewrite fdiv_ok; [f_equal; field; lra|]. apply Rinv_neq_0_compat. lra.
  - replace (0 + vx u ^ 2 / k + vy u ^ 2 / k + vz u ^ 2 / k) with ((vx u * vx u + vy u * vy u + vz u * vz u) * / k) by (field; lra).
    rewrite U. ring.
Qed.
Lemma tpf_value : FaceValueTPF m f = Ok (Some mean).
Proof.
  unfold FaceValueTPF. rewrite (unit_some m f xA xB u two_sides Hu). cbn [bind].
  rewrite two_tensors. cbn [bind fst snd].
  destruct (weight_some m f xA xB xf two_sides (proj1 Hu) Hf) as [d [Ed Ew]]. rewrite Ed. cbn [bind].
  rewrite (along_iso kA PA), (along_iso kB PB), Ew. fold hA hB. unfold fl1. cbn [fbind]. do 1 f_equal.
  pose proof mean_pos as MP. set (w := hA / (hA + hB)) in *.
  assert (N : 0 < w * kB + (1 - w) * kA).
  { replace (w * kB + (1 - w) * kA) with ((w * / kA + (1 - w) * / kB) * (kA * kB)) by (field; lra).
    apply Rmult_lt_0_compat; [exact MP|]. apply Rmult_lt_0_compat; assumption. }
  rewrite fdiv_ok by lra. f_equal. unfold mean. fold w. field. split; [lra|]. split; [|lra].
  intros Z. lra.
Qed.
Theorem tpf_layers_proof : 0 < hA -> 0 < hB ->
  exists k, FaceValueTPF m f = Ok (Some k) /\ forall pA pB, series kA kB hA hB pA pB (k * (pA - pB) / (hA + hB)).
Proof. intros D1 D2. exists mean. split; [exact tpf_value|]. apply mean_series; assumption. Qed.
End Two.

(** Tiny permeabilities. *)
Theorem tiny_proof : forall m f xu xd u xf n k, uniform m (isotropic k) -> 0 < k < step ->
  sides (q_geo m) f xu xd -> unit_between xu xd u -> nth_error (g_fc (q_geo m)) f = Some xf -> nth_error (g_fn (q_geo m)) f = Some n ->
  forall bc gravity iv a, area_known m iv f a ->
  (bc = NeumannBC -> forall c, nth_error (g_fcells (q_geo m)) f = Some c -> (0 <= fst c)%Z /\ (0 <= snd c)%Z) ->
  grav_dis m DefaultG bc gravity iv f = Ok (Some (Some 0)).
Proof.
  intros m f xu xd u xf n k HU [K0 K1] Hs Hu Hf Hn bc gravity iv a Ha Hb.
  assert (V : FaceValueMPFAO m f = Ok (Some 0)).
  { rewrite (value_uniform m f xu xd u xf n (isotropic k) HU); auto.
    - do 2 f_equal. unfold cut, map2, isotropic. cbn [m0 m1 m2 m3_ m4 m5 m6 m7 m8].
      rewrite !kept_small by (try exact K1; exact step_pos). unfold dot, mat_vec. cbn [m0 m1 m2 m3_ m4 m5 m6 m7 m8 vx vy vz]. ring.
    - unfold symmetric, isotropic. cbn. auto.
    - apply iso_invertible. lra. }
  rewrite (grav_default m bc gravity iv f xu xd u n a 0 Hs Hu Hb Ha Hn V). do 3 f_equal. ring.
Qed.

(** Two-point fluxes: at rest with one permeability. *)
Theorem tpf_rest_proof : forall m f a b xA xB xf n k, 
  nth_error (g_fcells (q_geo m)) f = Some (Z.of_nat a, Z.of_nat b) ->
  nth_error (g_cc (q_geo m)) a = Some xA -> nth_error (g_cc (q_geo m)) b = Some xB ->
  nth_error (g_fc (q_geo m)) f = Some xf -> nth_error (g_fn (q_geo m)) f = Some n ->
  nth_error (q_K m) a = Some (isotropic k) -> nth_error (q_K m) b = Some (isotropic k) -> 0 < k -> unit_between xA xB n ->
  forall bc iv area, area_known m iv f area -> forall p0 rho gz,
  exists G GD, tpf_G area n xB xA true (isotropic k) (isotropic k) = Some G /\
    grav_dis m TPF bc (V3 0 0 gz) iv f = Ok (Some (Some GD)) /\
    G * (at_rest p0 rho gz xA - at_rest p0 rho gz xB) / 2 + rho * GD = 0.
Proof.
  intros m f a b xA xB xf n k Hc HA HB Hf Hn KA KB Hk Hu bc iv area Ha p0 rho gz.
  destruct (orthogonal_proof area n xA xB k p0 (V3 0 0 (- (rho * Rabs gz)))) as [G [EG Eq]]; [lra|exact (proj1 Hu)|exact (proj2 Hu)|].
  exists G. eexists. split; [exact EG|]. split.
  - eapply grav_tpf; [eapply two_sides; eassumption|exact Hu| |exact Ha|exact Hn|eapply tpf_value; eassumption].
    intros _ c E. rewrite Hc in E. injection E as <-. cbn [fst snd]. lia.
  - rewrite <- !rest_linear in Eq. rewrite Eq, GtimesZ_vertical, iso_vec.
    pose proof (unit_square _ _ _ Hu) as U. rewrite U.
    assert (M : mean xA xB xf k k = k).
    { unfold mean. match goal with |- / (?w * / k + (1 - ?w) * / k) = k => replace (w * / k + (1 - w) * / k) with (/ k) by ring end.
      apply Rinv_involutive. lra. }
    rewrite M. unfold dot. cbn [vx vy vz]. ring.
Qed.

(** … and with two different ones. *)
Theorem tpf_unrest_proof : forall m f a b xA xB xf n kA kB,
  nth_error (g_fcells (q_geo m)) f = Some (Z.of_nat a, Z.of_nat b) ->
  nth_error (g_cc (q_geo m)) a = Some xA -> nth_error (g_cc (q_geo m)) b = Some xB ->
  nth_error (g_fc (q_geo m)) f = Some xf -> nth_error (g_fn (q_geo m)) f = Some n ->
  nth_error (q_K m) a = Some (isotropic kA) -> nth_error (q_K m) b = Some (isotropic kB) -> 0 < kA -> 0 < kB -> kA <> kB ->
  unit_between xA xB n -> length3 (vsub xA xf) = length3 (vsub xB xf) -> vz n <> 0 ->
  forall bc iv area, area_known m iv f area -> area <> 0 -> forall p0 rho gz, rho <> 0 -> gz <> 0 ->
  exists G GD, tpf_G area n xB xA true (isotropic kA) (isotropic kB) = Some G /\
    grav_dis m TPF bc (V3 0 0 gz) iv f = Ok (Some (Some GD)) /\
    G * (at_rest p0 rho gz xA - at_rest p0 rho gz xB) / 2 + rho * GD <> 0.
Proof.
  intros m f a b xA xB xf n kA kB Hc HA HB Hf Hn KA KB PA PB Hk Hu Hh Hz bc iv area Ha Har p0 rho gz Hr Hg.
  exists (- (area * ((kA + kB) / 2) / (length3 (vsub xB xA) / 2))). eexists.
  split; [apply SubcellStoreProofs.tpf_value; [lra|lra|exact (proj1 Hu)|exact (proj2 Hu)]|]. split.
  - eapply grav_tpf; [eapply two_sides; eassumption|exact Hu| |exact Ha|exact Hn|eapply tpf_value; [exact Hc|exact HA|exact HB|exact Hf|exact KA|exact KB|exact Hu|exact PA|exact PB]].
    intros _ c E. rewrite Hc in E. injection E as <-. cbn [fst snd]. lia.
  - rewrite GtimesZ_vertical. pose proof (unit_square _ _ _ Hu) as U. rewrite U.
    pose proof (triangle_zero xA xB xf (proj1 Hu)) as Hp.
    assert (M : mean xA xB xf kA kB = 2 * kA * kB / (kA + kB)).
    { unfold mean. rewrite <- Hh in *. set (h := length3 (vsub xA xf)) in *. field. repeat split; try lra.
      intros Z. pose proof (Rmult_lt_0_compat _ _ PA PB). assert (0 < h) by lra.
      assert (0 < h * kB) by (apply Rmult_lt_0_compat; lra). assert (0 < h * kA) by (apply Rmult_lt_0_compat; lra). lra. }
    rewrite M. destruct Hu as [Hne E]. set (L := length3 (vsub xB xA)) in *.
    assert (L0 : L <> 0).
    { intros Z. apply Hne. rewrite Z in E. destruct xA as [a0 b0 c0], xB as [d0 e0 f0]. unfold vsub, vscale in E. cbn [vx vy vz] in E.
      injection E as X1 X2 X3. f_equal; lra. }
    assert (Ez : vz xB - vz xA = L * vz n) by (apply (f_equal vz) in E; exact E).
    unfold at_rest. replace (p0 - rho * Rabs gz * vz xA - (p0 - rho * Rabs gz * vz xB)) with (rho * Rabs gz * (vz xB - vz xA)) by ring.
    rewrite Ez.
    replace (- (area * ((kA + kB) / 2) / (L / 2)) * (rho * Rabs gz * (L * vz n)) / 2 + rho * (area * 1 * (2 * kA * kB / (kA + kB)) * (Rabs gz * vz n)))
      with (- (area * rho * Rabs gz * vz n * ((kA - kB) * (kA - kB)) / (2 * (kA + kB)))) by (field; lra).
    apply Ropp_neq_0_compat. unfold Rdiv. repeat apply Rmult_integral_contrapositive_currified; try assumption; try lra.
    + apply Rabs_no_R0. exact Hg.
    + apply Rinv_neq_0_compat. lra.
Qed.

(** Permeability that ties horizontal flow to the height: a face across the x axis. *)
Theorem tilted_proof : forall m K iv v face xf nrm ar, of_mesh (q_geo m) K iv v face -> complete (q_geo m) face v xf nrm ar ->
  uniform m K -> symmetric K -> invertible K -> not_small K -> m2 K <> 0 ->
  forall ncells P cc p0 rho gz b X l,
  (forall cell, In cell (v_cells v) -> nth_error (g_cc (q_geo m)) cell = Some (cc cell) /\ P cell = at_rest p0 rho gz (cc cell)) ->
  well_numbered v -> regular b v -> lapack_answer b v X -> NonCornerVertex b ncells v (Some X) = Ok l -> two_sided v ->
  b <> NeumannBC -> (forall f, In f (all_faces v) -> sf_internal f = false -> P (sf_bnd f + ncells)%nat = at_rest p0 rho gz (xf (sf_unk f))) ->
  forall f row xu xd, In f (all_faces v) -> nth_error (v_rows v) (place v f) = Some row ->
  sides (q_geo m) (face (sf_unk f)) xu xd -> unit_between xu xd (V3 1 0 0) -> nrm (sf_unk f) = V3 1 0 0 ->
  area_known m iv (face (sf_unk f)) (ar (sf_unk f)) -> ar (sf_unk f) <> 0 -> rho <> 0 -> gz <> 0 ->
  exists G, grav_dis m DefaultG b (V3 0 0 gz) iv (face (sf_unk f)) = Ok (Some (Some G)) /\ mult l P row + rho * G <> 0.
Proof.
  intros m K iv v face xf nrm ar Hm Hc HU HS HI Hs HK ncells P cc p0 rho gz b X l Hcc W RG LA NC TS Hb Hbd f row xu xd Hf Hr Hsd Hu Hn Ha Har Hrho Hg.
  destruct (rest_total m K iv v face xf nrm ar Hm Hc HU HS HI ncells P cc p0 rho gz Hcc b X l W RG LA NC TS (fun _ => Hbd) (fun E => match Hb E with end)
    f row xu xd (V3 1 0 0) Hf Hr Hsd Hu Ha (fun E => match Hb E with end)) as [G [E1 E2]].
  exists G. split; [exact E1|]. rewrite E2, Hn. unfold mat_vec at 2. cbn [vx vy vz].
  destruct HS as [_ [S2 _]]. rewrite <- S2.
  replace (ar (sf_unk f) * rho * Rabs gz * (dot (V3 1 0 0) (mat_vec (cut K) (V3 1 0 0)) * 0 - (m2 K * 1 + m7 K * 0 + m8 K * 0)))
    with (- (ar (sf_unk f) * rho * Rabs gz * m2 K)) by ring.
  apply Ropp_neq_0_compat. repeat apply Rmult_integral_contrapositive_currified; try assumption. apply Rabs_no_R0. exact Hg.
Qed.
