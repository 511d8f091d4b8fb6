(** Proofs about the gravity term. *)
From Coq Require Import Reals List Bool Arith ZArith Lia Lra.
From Verif Require Import Prelude Arrays SpecFvtpf Geom SpecGeom GeomProofs Mpfao SpecMpfao MpfaoProofs Subcell SpecSubcell SubcellProofs SubcellStoreProofs SubcellMoreProofs Transport UGrid MeshFacesTables Gravity SpecGravity.
Import ListNotations.
Local Open Scope R_scope.

Lemma epsilon_step : epsilon = step.
Proof. reflexivity. Qed.
Lemma step_pos : 0 < step.
Proof. unfold step. apply Rinv_0_lt_compat, pow_lt. lra. Qed.
Lemma kept_id : forall x, x = 0 \/ step <= x -> kept x = x.
Proof.
  intros x H. pose proof step_pos. unfold kept. rewrite epsilon_step. destruct (Rlt_dec x 0); [lra|].
  destruct (Rlt_dec (Rabs x) step) as [L|]; [|reflexivity]. rewrite Rabs_right in L by lra. lra.
Qed.
Lemma kept_small : forall x, x < step -> kept x = 0.
Proof.
  intros x H. unfold kept. rewrite epsilon_step. destruct (Rlt_dec x 0); [reflexivity|].
  destruct (Rlt_dec (Rabs x) step) as [L|L]; [reflexivity|]. rewrite Rabs_right in L by lra. lra.
Qed.
Lemma rdz_some : forall {A} (l : list A) z x, (0 <= z)%Z -> nth_error l (Z.to_nat z) = Some x -> UGrid.rdz l z = Ok x.
Proof. intros A l z x Hz H. unfold UGrid.rdz. destruct (Z.ltb_spec z 0); [lia|]. apply rd_some, H. Qed.

(** ** Inverses *)
Definition inv_of (a : m3) : option m3 := fst (Inverse3 epsilon a).
Lemma mat_assoc : forall a b c, mat_mul a (mat_mul b c) = mat_mul (mat_mul a b) c.
Proof. intros a b c. unfold mat_mul. cbn [m0 m1 m2 m3_ m4 m5 m6 m7 m8]. f_equal; ring. Qed.
Lemma mat_left : forall a, mat_mul mat_id a = a.
Proof. intros a. unfold mat_mul, mat_id. cbn [m0 m1 m2 m3_ m4 m5 m6 m7 m8]. destruct a as [a0 a1 a2 a3 a4 a5 a6 a7 a8]; cbn [m0 m1 m2 m3_ m4 m5 m6 m7 m8]; f_equal; ring. Qed.
Lemma mat_right : forall a, mat_mul a mat_id = a.
Proof. intros a. unfold mat_mul, mat_id. cbn [m0 m1 m2 m3_ m4 m5 m6 m7 m8]. destruct a as [a0 a1 a2 a3 a4 a5 a6 a7 a8]; cbn [m0 m1 m2 m3_ m4 m5 m6 m7 m8]; f_equal; ring. Qed.
Lemma inverse_unique : forall a b, mat_mul a b = mat_id -> fst (Inverse3 epsilon a) = Some b.
Proof.
  intros a b H. destruct (inverse_correct epsilon a) as [c [E [H1 H2]]]; [exists b; exact H|].
  rewrite E. f_equal. rewrite <- (mat_right c), <- H, mat_assoc, H2. apply mat_left.
Qed.
Definition cut (K : m3) : m3 := map2 (fun a _ => kept a) K K.
Lemma harmonic_same : forall w K, invertible K -> harmonic w K K = Some (cut K).
Proof.
  intros w K HK. unfold harmonic. destruct (inverse_correct epsilon K HK) as [b [E [H1 H2]]]. rewrite E.
  replace (map2 (fun a b : R => w * a + (1 - w) * b) b b) with b.
  - rewrite (inverse_unique b K H2). reflexivity.
  - destruct b as [a0 a1 a2 a3 a4 a5 a6 a7 a8]. unfold map2. cbn [m0 m1 m2 m3_ m4 m5 m6 m7 m8]. f_equal; ring.
Qed.
Lemma cut_id : forall K, not_small K -> cut K = K.
Proof.
  intros K H. unfold cut, map2. rewrite !kept_id by (apply H; unfold entries_of; simpl; tauto). destruct K; reflexivity.
Qed.
Lemma transposed_symmetric : forall K, symmetric K -> transposed K = K.
Proof. intros K [H1 [H2 H3]]. destruct K as [a0 a1 a2 a3 a4 a5 a6 a7 a8]. unfold transposed. cbn [m0 m1 m2 m3_ m4 m5 m6 m7 m8] in *. congruence. Qed.

(** Two permeabilities without direction. *)
Lemma iso_inverse : forall k, k <> 0 -> fst (Inverse3 epsilon (isotropic k)) = Some (isotropic (/ k)).
Proof. intros k Hk. apply inverse_unique. unfold mat_mul, mat_id, isotropic. cbn [m0 m1 m2 m3_ m4 m5 m6 m7 m8]. f_equal; field; assumption. Qed.
Lemma iso_harmonic : forall w kA kB, kA <> 0 -> kB <> 0 -> w * / kA + (1 - w) * / kB <> 0 ->
  harmonic w (isotropic kA) (isotropic kB) = Some (cut (isotropic (/ (w * / kA + (1 - w) * / kB)))).
Proof.
  intros w kA kB HA HB H. unfold harmonic. rewrite (iso_inverse kA HA), (iso_inverse kB HB).
  replace (map2 (fun a b : R => w * a + (1 - w) * b) (isotropic (/ kA)) (isotropic (/ kB))) with (isotropic (w * / kA + (1 - w) * / kB)).
  - rewrite (iso_inverse _ H). reflexivity.
  - unfold map2, isotropic. cbn [m0 m1 m2 m3_ m4 m5 m6 m7 m8]. f_equal; ring.
Qed.
Lemma iso_invertible : forall k, k <> 0 -> invertible (isotropic k).
Proof. intros k Hk. exists (isotropic (/ k)). unfold mat_mul, mat_id, isotropic. cbn [m0 m1 m2 m3_ m4 m5 m6 m7 m8]. f_equal; field; assumption. Qed.

(** ** Geometry of a face *)
Section Face.
Variable m : gmesh.
Let g := q_geo m.
Lemma centre_some : forall f z x, side_point g f z x -> centre_of m f z = Ok x.
Proof.
  intros f z x [[Hz H]|[Hz H]]; unfold centre_of; fold g.
  - destruct (Z.leb_spec 0 z); [|lia]. apply rdz_some; assumption.
  - destruct (Z.leb_spec 0 z); [lia|]. apply rd_some, H.
Qed.
Lemma both_not : forall c : Z * Z, (0 <= fst c)%Z \/ (0 <= snd c)%Z -> ((fst c <? 0) && (snd c <? 0))%Z = false.
Proof. intros c H. destruct (Z.ltb_spec (fst c) 0), (Z.ltb_spec (snd c) 0); try reflexivity. lia. Qed.
Lemma unit_some : forall f xu xd u, sides g f xu xd -> unit_between xu xd u -> UpDownUnitVector m f = Ok (Some u).
Proof.
  intros f xu xd u [c [Hc [Hs [Hu Hd]]]] [Hne E]. unfold UpDownUnitVector. fold g. rewrite (rd_some _ _ _ Hc). cbn [bind].
  rewrite (both_not c Hs), (centre_some _ _ _ Hu), (centre_some _ _ _ Hd). cbn [bind].
  rewrite (joining_value _ _ Hne). do 2 f_equal.
  assert (L : length3 (vsub xd xu) <> 0).
  { intros Z. apply Hne. rewrite Z in E. destruct xu as [a b c0], xd as [d e f0]. unfold vsub, vscale in E. cbn [vx vy vz] in E.
    injection E as E1 E2 E3. f_equal; lra. }
  rewrite E at 2. unfold vscale. cbn [vx vy vz]. destruct u as [u0 u1 u2]; cbn [vx vy vz]. f_equal; field; exact L.
Qed.
Lemma length_nonneg : forall a, 0 <= length3 a.
Proof. intros a. apply sqrt_pos. Qed.
Definition gap (f : nat) (z : Z) (x : v3) (h : R) : Prop :=
  ((0 <= z)%Z /\ exists xf, nth_error (g_fc g) f = Some xf /\ h = length3 (vsub x xf)) \/ ((z < 0)%Z /\ h = 0).
Lemma dist_some : forall f z x xf, side_point g f z x -> nth_error (g_fc g) f = Some xf -> dist_of m f z = Ok (Some (length3 (vsub x xf))).
Proof.
  intros f z x xf [[Hz H]|[Hz H]] Hf; unfold dist_of; fold g.
  - destruct (Z.leb_spec 0 z); [|lia]. rewrite (rdz_some _ _ _ Hz H), (rd_some _ _ _ Hf). cbn [bind]. rewrite ComputeLength_value. reflexivity.
  - destruct (Z.leb_spec 0 z); [lia|]. rewrite Hf in H. injection H as <-. do 2 f_equal.
    unfold length3, dot, vsub. cbn [vx vy vz]. rewrite <- sqrt_0. f_equal. ring.
Qed.
Lemma triangle_zero : forall a b x, a <> b -> 0 < length3 (vsub a x) + length3 (vsub b x).
Proof.
  intros a b x H. pose proof (length_nonneg (vsub a x)). pose proof (length_nonneg (vsub b x)).
  destruct (Rle_lt_or_eq_dec 0 (length3 (vsub a x) + length3 (vsub b x))) as [L|L]; [lra|exact L|]. exfalso.
  assert (Z : forall y, length3 (vsub y x) = 0 -> y = x).
  { intros y Hy. unfold length3 in Hy. apply sqrt_eq_0 in Hy; [|apply dot_pos].
    destruct y as [y0 y1 y2], x as [x0 x1 x2]. unfold dot, vsub in Hy. cbn [vx vy vz] in Hy.
    pose proof (Rle_0_sqr (y0 - x0)). pose proof (Rle_0_sqr (y1 - x1)). pose proof (Rle_0_sqr (y2 - x2)). unfold Rsqr in *.
    assert (A0 : (y0 - x0) * (y0 - x0) = 0) by lra. assert (A1 : (y1 - x1) * (y1 - x1) = 0) by lra. assert (A2 : (y2 - x2) * (y2 - x2) = 0) by lra.
    apply Rmult_integral in A0. apply Rmult_integral in A1. apply Rmult_integral in A2. f_equal; lra. }
  apply H. rewrite (Z a), (Z b) by lra. reflexivity.
Qed.
Lemma weight_some : forall f xu xd xf, sides g f xu xd -> xu <> xd -> nth_error (g_fc g) f = Some xf ->
  exists d, UpAndDownDist m f = Ok d /\
    weight_up d = Some (length3 (vsub xu xf) / (length3 (vsub xu xf) + length3 (vsub xd xf))).
Proof.
  intros f xu xd xf [c [Hc [Hs [Hu Hd]]]] Hne Hf. unfold UpAndDownDist. fold g. rewrite (rd_some _ _ _ Hc). cbn [bind].
  rewrite (both_not c Hs), (dist_some _ _ _ _ Hu Hf), (dist_some _ _ _ _ Hd Hf). cbn [bind]. eexists. split; [reflexivity|].
  unfold weight_up, fl1. cbn [fbind fst snd]. apply fdiv_ok. pose proof (triangle_zero xu xd xf Hne). lra.
Qed.
Lemma tensors_uniform : forall f xu xd K, uniform m K -> sides g f xu xd -> UpAndDownTensors m f = Ok (transposed K, transposed K).
Proof.
  intros f xu xd K [HL HU] [c [Hc [Hs [Hu Hd]]]]. unfold UpAndDownTensors. fold g. rewrite (rd_some _ _ _ Hc). cbn [bind].
  rewrite (both_not c Hs).
  assert (R : forall z x, (0 <= z)%Z -> side_point g f z x -> UGrid.rdz (q_K m) z = Ok K).
  { intros z x Hz [[_ H]|[H _]]; [|lia].
    destruct (nth_error (q_K m) (Z.to_nat z)) as [k|] eqn:Ek.
    - rewrite (rdz_some _ _ _ Hz Ek). f_equal. exact (HU _ _ Ek).
    - apply nth_error_None in Ek. apply nth_lt in H. fold g in HL. lia. }
  assert (R1 : UGrid.rdz (q_K m) (if (0 <=? fst c)%Z then fst c else snd c) = Ok K).
  { destruct (Z.leb_spec 0 (fst c)); [eapply R; eassumption|]. eapply R; [|exact Hd]. lia. }
  assert (R2 : UGrid.rdz (q_K m) (if (0 <=? snd c)%Z then snd c else fst c) = Ok K).
  { destruct (Z.leb_spec 0 (snd c)); [eapply R; eassumption|]. eapply R; [|exact Hu]. lia. }
  rewrite R1, R2. reflexivity.
Qed.

Lemma value_uniform : forall f xu xd u xf n K, uniform m K -> symmetric K -> invertible K ->
  sides g f xu xd -> unit_between xu xd u -> nth_error (g_fc g) f = Some xf -> nth_error (g_fn g) f = Some n ->
  FaceValueMPFAO m f = Ok (Some (dot n (mat_vec (cut K) u))).
Proof.
  intros f xu xd u xf n K HU HS HI Hs Hu Hf Hn. unfold FaceValueMPFAO. rewrite (unit_some _ _ _ _ Hs Hu). cbn [bind].
  unfold FaceTensor. destruct (weight_some f xu xd xf Hs (proj1 Hu) Hf) as [d [Ed Ew]]. rewrite Ed. cbn [bind].
  rewrite (tensors_uniform _ _ _ _ HU Hs). cbn [bind fst snd]. rewrite Ew, (transposed_symmetric K HS), (harmonic_same _ K HI).
  fold g. rewrite (rd_some _ _ _ Hn). cbn [bind]. do 2 f_equal.
  unfold DotProduct, times, dot, mat_vec. cbn [vx vy vz]. ring.
Qed.
Lemma grav_default : forall bc gravity iv f xu xd u n a k, sides g f xu xd -> unit_between xu xd u ->
  (bc = NeumannBC -> forall c, nth_error (g_fcells g) f = Some c -> (0 <= fst c)%Z /\ (0 <= snd c)%Z) ->
  area_known m iv f a -> nth_error (g_fn g) f = Some n -> FaceValueMPFAO m f = Ok (Some k) ->
  grav_dis m DefaultG bc gravity iv f = Ok (Some (Some (a * k * GtimesZ gravity u))).
Proof.
  intros bc gravity iv f xu xd u n a k Hs Hu Hbc Ha Hn Hk. pose proof Hs as [c [Hc _]]. unfold grav_dis. fold g.
  rewrite (rd_some _ _ _ Hc). cbn [bind].
  assert (B : (match bc with NeumannBC => true | _ => false end && ((fst c <? 0) || (snd c <? 0))%Z)%bool = false).
  { destruct bc; try reflexivity. destruct (Hbc eq_refl c Hc). destruct (Z.ltb_spec (fst c) 0), (Z.ltb_spec (snd c) 0); try reflexivity; lia. }
  rewrite B. destruct (Ha c Hc) as [id [Eid Ea]]. rewrite Eid. cbn [bind]. rewrite (rd_some _ _ _ Ea). cbn [bind].
  rewrite (unit_some _ _ _ _ Hs Hu). cbn [bind]. rewrite Hk. cbn [bind]. rewrite (rd_some _ _ _ Hn). reflexivity.
Qed.
Lemma grav_tpf : forall bc gravity iv f xu xd u n a k, sides g f xu xd -> unit_between xu xd u ->
  (bc = NeumannBC -> forall c, nth_error (g_fcells g) f = Some c -> (0 <= fst c)%Z /\ (0 <= snd c)%Z) ->
  area_known m iv f a -> nth_error (g_fn g) f = Some n -> FaceValueTPF m f = Ok (Some k) ->
  grav_dis m TPF bc gravity iv f = Ok (Some (Some (a * dot n u * k * GtimesZ gravity u))).
Proof.
  intros bc gravity iv f xu xd u n a k Hs Hu Hbc Ha Hn Hk. pose proof Hs as [c [Hc _]]. unfold grav_dis. fold g.
  rewrite (rd_some _ _ _ Hc). cbn [bind].
  assert (B : (match bc with NeumannBC => true | _ => false end && ((fst c <? 0) || (snd c <? 0))%Z)%bool = false).
  { destruct bc; try reflexivity. destruct (Hbc eq_refl c Hc). destruct (Z.ltb_spec (fst c) 0), (Z.ltb_spec (snd c) 0); try reflexivity; lia. }
  rewrite B. destruct (Ha c Hc) as [id [Eid Ea]]. rewrite Eid. cbn [bind]. rewrite (rd_some _ _ _ Ea). cbn [bind].
  rewrite (unit_some _ _ _ _ Hs Hu). cbn [bind]. rewrite Hk. cbn [bind]. rewrite (rd_some _ _ _ Hn). reflexivity.
Qed.
End Face.
