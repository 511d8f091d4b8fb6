(** Proofs about Demo: constants, the wrong functions, the selection and the meshes. *)
From Coq Require Import Reals List Arith Lia Lra Psatz.
From Coquelicot Require Import Coquelicot.
From Verif Require Import Prelude Arrays Demo SpecDemo ClosuresProofs DemoProofs DemoFields DemoFields2.
Import ListNotations.
Local Open Scope R_scope.

(** * Constant pressure *)
Lemma VelocityConstant_fills d : fills d 3 VelocityConstant (fun _ k => nth k [0; 0; 0] 0).
Proof. eapply (fills_loop d 3 (fun _ => [0; 0; 0])); solve_loop. Qed.
Lemma ForcingConstant_fills d : fills d 1 ForcingConstant (fun _ _ => 0).
Proof. apply fills1. eapply (fills_loop d 1 (fun _ => [0])); solve_loop. Qed.
Lemma sum_0 d f : (forall k, f k = 0) -> sum d f = 0.
Proof. intros H. induction d as [|d IH]; cbn [sum]; [reflexivity|]. rewrite IH, H. ring. Qed.
Lemma darcy_constant d K c : darcy d K (fun _ => c) (fun _ _ => 0) (fun _ => 0).
Proof.
  intros q. exists (fun _ => 0), (fun _ => 0). split; [|split; [|split]].
  - intros k _. apply (is_derive_const c).
  - intros k _. rewrite sum_0; [ring|]. intros; ring.
  - intros k _. apply (is_derive_const 0).
  - symmetry. apply sum_0. reflexivity.
Qed.
Lemma zero3 k : nth k [0; 0; 0] 0 = 0.
Proof. destruct k as [|[|[|[|k]]]]; reflexivity. Qed.
Lemma constant3D perm K : fills 3 9 perm K -> solution 3 K (fun _ => 314/100) perm PressureConstant VelocityConstant ForcingConstant.
Proof.
  intros H. exists (fun _ _ => 0), (fun _ => 0). split; [exact H|]. split; [exact (PressureConstant_fills 3)|].
  split; [eapply fills_ext; [exact (VelocityConstant_fills 3)|intros; apply zero3]|]. split; [apply ForcingConstant_fills|]. apply darcy_constant.
Qed.
Lemma constant2D perm K : fills 2 4 perm K -> point_solution 2 K (fun _ => 314/100) perm PressureConstant VelocityConstant ForcingConstant.
Proof.
  intros H. exists (fun _ _ => 0), (fun _ => 0). split; [exact H|]. split; [exact (PressureConstant_fills 2)|].
  split.
  - intros x out Lx Lo. destruct (VelocityConstant_fills 2 1%nat x out) as (o & A & B & C & _); [lia|unfold fl in *; lia|].
    exists o. split; [exact A|]. split; [unfold fl in *; congruence|].
    intros k Hk. specialize (C 0%nat k ltac:(lia) ltac:(lia)). cbn [Nat.mul Nat.add] in C. rewrite C. now rewrite zero3.
  - split; [apply ForcingConstant_fills|]. apply darcy_constant.
Qed.
Lemma constant2D_outside n x v : (0 < n)%nat -> length v = (2 * n)%nat -> VelocityConstant n x v = UB.
Proof.
  intros Hn Lv. unfold VelocityConstant.
  set (m := (2 * n / 3)%nat).
  assert (Hm : (3 * m <= 2 * n < 3 * m + 3)%nat).
  { unfold m. pose proof (Nat.div_mod (2 * n) 3 ltac:(lia)). pose proof (Nat.mod_upper_bound (2 * n) 3 ltac:(lia)). lia. }
  destruct (for_fill 3 m (fun i v => wrs v (3 * i) [0; 0; 0]) (fun _ => [0; 0; 0]) v) as (o & E & L & _); [unfold fl in *; lia|reflexivity|reflexivity|].
  apply (for_UB _ m n v o); [lia|exact E|].
  assert (Lo : length o = (2 * n)%nat) by (unfold fl in *; congruence). clear - Hm Lo. cbn [wrs].
  assert (W : forall (o : list fl) i a, (length o <= i)%nat -> wr o i a = UB).
  { intros l i a H. unfold wr. destruct (Nat.ltb_spec i (length l)); [lia|reflexivity]. }
  destruct (Nat.lt_ge_cases (3 * m) (2 * n)) as [H1|H1]; [|rewrite W by (unfold fl in *; lia); reflexivity].
  rewrite wr_ok by (unfold fl in *; lia). cbn [bind].
  destruct (Nat.lt_ge_cases (S (3 * m)) (2 * n)) as [H2|H2]; [|rewrite W by (rewrite length_upd; unfold fl in *; lia); reflexivity].
  rewrite wr_ok by (rewrite length_upd; unfold fl in *; lia). cbn [bind].
  rewrite W by (rewrite !length_upd; unfold fl in *; lia). reflexivity.
Qed.

(** * Quadratic pressure in space *)
Definition K3 := [4321/1000; 1; 1/2; 1; 1234/1000; 1; 1/2; 1; 11/10].
Definition vq3 (k : nat) (X Y Z : R) := - nth (3 * k) K3 0 * (1-2*X) - nth (3 * k + 1) K3 0 * (1-2*Y) - nth (3 * k + 2) K3 0 * (1-2*Z).
Lemma quadratic3D_any forcing : fills 3 1 forcing (fun _ _ => 2 * (4321/1000 + 1234/1000 + 11/10)) ->
  solution 3 (table K3) (fun q => 314/100 + q 0%nat*(1 - q 0%nat) + q 1%nat*(1 - q 1%nat) + q 2%nat*(1 - q 2%nat)) PermTest3D PressureQuadratic3D VelocityQuadratic3D forcing.
Proof.
  intros HF.
  apply (solution3 (fun _ _ _ => K3) (fun X Y Z => 314/100 + X*(1-X) + Y*(1-Y) + Z*(1-Z)) (vq3 0) (vq3 1) (vq3 2) (fun _ _ _ => 2 * (4321/1000 + 1234/1000 + 11/10))).
  - exact PermTest3D_fills.
  - exact PressureQuadratic3D_fills.
  - f9 PermTest3D_fills (fun q => [vq3 0 (q0 q) (q1 q) (q2 q); vq3 1 (q0 q) (q1 q) (q2 q); vq3 2 (q0 q) (q1 q) (q2 q)]).
  - eapply fills_ext; [exact HF|]. intros q [|k] Hk; [reflexivity|lia].
  - unfold vq3, K3; cbn [nth Nat.mul Nat.add]. good3; field.
Qed.

Lemma darcy_unique d K p v f v' f' : darcy d K p v f -> darcy d K p v' f' -> forall q, f q = f' q.
Proof.
  intros A B.
  assert (Hv : forall q k, (k < d)%nat -> v q k = v' q k).
  { intros q k Hk. destruct (A q) as (g & _ & G & V & _). destruct (B q) as (g' & _ & G' & V' & _).
    rewrite V, V' by assumption. f_equal.
    assert (S : forall m, (m <= d)%nat -> sum m (fun j => K q (d * k + j)%nat * g j) = sum m (fun j => K q (d * k + j)%nat * g' j)).
    { induction m as [|m IH]; intros Hm; cbn [sum]; [reflexivity|]. rewrite IH by lia. f_equal. f_equal.
      rewrite <- (is_derive_unique _ _ _ (G m ltac:(lia))), <- (is_derive_unique _ _ _ (G' m ltac:(lia))). reflexivity. }
    apply S; lia. }
  intros q. destruct (A q) as (_ & w & _ & _ & W & F). destruct (B q) as (_ & w' & _ & _ & W' & F').
  rewrite F, F'. clear F F'.
  assert (S : forall m, (m <= d)%nat -> sum m w = sum m w').
  { induction m as [|m IH]; intros Hm; cbn [sum]; [reflexivity|]. rewrite IH by lia. f_equal.
    rewrite <- (is_derive_unique _ _ _ (W m ltac:(lia))), <- (is_derive_unique _ _ _ (W' m ltac:(lia))).
    apply Derive_ext. intros t. apply Hv; lia. }
  apply S; lia.
Qed.
Lemma fills_at d c F G : fills d 1 c (fun q _ => F q) -> fills d 1 c (fun q _ => G q) -> forall x, length x = d -> F (point d x 0) = G (point d x 0).
Proof.
  intros A B x Lx. destruct (A 1%nat x [None]) as (o & E & _ & V & _); [lia|cbn; lia|].
  destruct (B 1%nat x [None]) as (o' & E' & _ & V' & _); [lia|cbn; lia|].
  specialize (V 0%nat 0%nat ltac:(lia) ltac:(lia)). specialize (V' 0%nat 0%nat ltac:(lia) ltac:(lia)).
  assert (o = o') by congruence. subst o'. congruence.
Qed.
Lemma ForcingQuadratic3D_fills : fills 3 1 ForcingQuadratic3D (fun _ _ => 2 * (4321/1000 + 1 + 11/10)).
Proof. apply fills1. f9 PermTest3D_fills (fun _ : nat -> R => [2 * (4321/1000 + 1 + 11/10)]). Qed.
Lemma quadratic3D_wrong : ~ solution 3 (table K3) (fun q => 314/100 + q 0%nat*(1 - q 0%nat) + q 1%nat*(1 - q 1%nat) + q 2%nat*(1 - q 2%nat))
  PermTest3D PressureQuadratic3D VelocityQuadratic3D ForcingQuadratic3D.
Proof.
  intros (v & f & _ & _ & _ & HF & D).
  destruct (quadratic3D_any (fun n x o => for_ n (fun i o => wr o i (Some (2 * (4321/1000 + 1234/1000 + 11/10)))) o)) as (v' & f' & _ & _ & _ & HF' & D').
  { apply fills1. eapply (fills_loop 3 1 (fun _ => [2 * (4321/1000 + 1234/1000 + 11/10)])); solve_loop. }
  pose proof (fills_at 3 _ _ _ HF ForcingQuadratic3D_fills [0; 0; 0] eq_refl) as E. cbv beta in E.
  rewrite (darcy_unique _ _ _ _ _ _ _ D D') in E.
  assert (HC : fills 3 1 (fun n x o => for_ n (fun i o => wr o i (Some (2 * (4321/1000 + 1234/1000 + 11/10)))) o) (fun _ _ => 2 * (4321/1000 + 1234/1000 + 11/10))).
  { apply fills1. eapply (fills_loop 3 1 (fun _ => [2 * (4321/1000 + 1234/1000 + 11/10)])); solve_loop. }
  pose proof (fills_at 3 _ _ _ HF' HC [0; 0; 0] eq_refl) as E'. cbv beta in E'. rewrite E' in E. lra.
Qed.

(** * Forcing of the transient demonstration *)
Lemma transient_first n x f : (1 <= length f)%nat -> exists f', TransientForcing n x f = Ok f' /\ length f' = length f /\
  (forall j, (1 <= j)%nat -> nth_error f' j = nth_error f j) /\ ((0 < n)%nat -> nth_error f' 0 = Some (Some 0)).
Proof.
  intros L. unfold TransientForcing.
  destruct (for_inv (fun m (o : list fl) => length o = length f /\ (forall j, (1 <= j)%nat -> nth_error o j = nth_error f j) /\ ((0 < m)%nat -> nth_error o 0 = Some (Some 0)))
    (fun i f => wr f 0 (Some 0)) n f) as (o & E & A).
  - split; [reflexivity|]. split; [auto|lia].
  - intros i o Hi (Lo & A & _). rewrite wr_ok by (unfold fl in *; lia). eexists. split; [reflexivity|].
    split; [rewrite length_upd; exact Lo|]. split; [intros j Hj; rewrite nth_upd_other by lia; auto|].
    intros _. apply nth_upd_same. unfold fl in *; lia.
  - exists o. auto.
Qed.

(** * Positive permeabilities *)
Lemma spd2 K a b c : K 0%nat = a -> K 1%nat = b -> K 2%nat = b -> K 3%nat = c -> 0 < a -> b * b < a * c -> symmetric_positive 2 K.
Proof.
  intros E0 E1 E2 E3 Ha Hd. split.
  - intros [|[|k]] [|[|j]] Hk Hj; try lia; cbn [Nat.mul Nat.add]; congruence.
  - intros u Hu. cbn [sum Nat.mul Nat.add]. rewrite E0, E1, E2, E3.
    set (x := u 0%nat). set (y := u 1%nat).
    assert (Q : a * (0 + x * (0 + a * x + b * y) + y * (0 + b * x + c * y)) = (a*x + b*y)^2 + (a*c - b*b)*y^2) by ring.
    assert (P : 0 < (a*x + b*y)^2 + (a*c - b*b)*y^2).
    { destruct (Req_dec y 0) as [Hy|Hy].
      - assert (N : x <> 0). { destruct Hu as (k & Hk & N). destruct k as [|[|k]]; [exact N|contradiction|lia]. }
        rewrite Hy. replace ((a*x + b*0)^2 + (a*c - b*b)*0^2) with ((a*x)^2) by ring. apply pow2_gt_0, Rmult_integral_contrapositive_currified; lra.
      - assert (0 < y^2) by (apply pow2_gt_0, Hy). pose proof (pow2_ge_0 (a*x + b*y)). nra. }
    rewrite <- Q in P. apply (Rmult_lt_reg_l a); [exact Ha|]. rewrite Rmult_0_r. exact P.
Qed.
Lemma spd3 K a b c d e f : K 0%nat = a -> K 1%nat = b -> K 2%nat = c -> K 3%nat = b -> K 4%nat = d -> K 5%nat = e -> K 6%nat = c -> K 7%nat = e -> K 8%nat = f ->
  0 < a -> b * b < a * d -> (a*e - b*c) * (a*e - b*c) < (a*d - b*b) * (a*f - c*c) -> symmetric_positive 3 K.
Proof.
  intros E0 E1 E2 E3 E4 E5 E6 E7 E8 Ha Hd Hf. split.
  - intros [|[|[|k]]] [|[|[|j]]] Hk Hj; try lia; cbn [Nat.mul Nat.add]; congruence.
  - intros u Hu. cbn [sum Nat.mul Nat.add]. rewrite E0, E1, E2, E3, E4, E5, E6, E7, E8.
    set (x := u 0%nat). set (y := u 1%nat). set (z := u 2%nat).
    set (D := a*d - b*b). set (G := a*e - b*c). set (H := a*f - c*c).
    assert (HD : 0 < D) by (unfold D; lra). assert (HH : G * G < D * H) by (unfold D, G, H; lra).
    assert (Q : a * D * (0 + x * (0 + a*x + b*y + c*z) + y * (0 + b*x + d*y + e*z) + z * (0 + c*x + e*y + f*z)) =
      D * (a*x + b*y + c*z)^2 + (D*y + G*z)^2 + (D*H - G*G)*z^2) by (unfold D, G, H; ring).
    assert (P : 0 < D * (a*x + b*y + c*z)^2 + (D*y + G*z)^2 + (D*H - G*G)*z^2).
    { pose proof (pow2_ge_0 (a*x + b*y + c*z)) as S1. pose proof (pow2_ge_0 (D*y + G*z)) as S2.
      assert (S3 : 0 <= D * (a*x + b*y + c*z)^2) by (apply Rmult_le_pos; lra).
      destruct (Req_dec z 0) as [Hz|Hz].
      - destruct (Req_dec y 0) as [Hy|Hy].
        + assert (N : x <> 0). { destruct Hu as (k & Hk & N). destruct k as [|[|[|k]]]; [exact N|contradiction|contradiction|lia]. }
          rewrite Hy, Hz in *. assert (0 < D * (a*x + b*0 + c*0)^2).
          { apply Rmult_lt_0_compat; [exact HD|]. assert (a*x <> 0) by (apply Rmult_integral_contrapositive_currified; lra).
            replace (a*x + b*0 + c*0) with (a*x) by ring. apply pow2_gt_0; assumption. }
          replace (D*0 + G*0) with 0 by ring. lra.
        + rewrite Hz. assert (D*y <> 0) by (apply Rmult_integral_contrapositive_currified; lra).
          assert (0 < (D*y + G*0)^2) by (replace (D*y + G*0) with (D*y) by ring; apply pow2_gt_0; assumption). rewrite Hz in S3. lra.
      - assert (0 < (D*H - G*G) * z^2) by (apply Rmult_lt_0_compat; [lra|apply pow2_gt_0; assumption]). lra. }
    rewrite <- Q in P. apply (Rmult_lt_reg_l (a * D)); [apply Rmult_lt_0_compat; assumption|]. rewrite Rmult_0_r. exact P.
Qed.

Lemma spd_test2 q : symmetric_positive 2 (table [5; 1; 1; 2] q).
Proof. eapply (spd2 _ 5 1 2); try reflexivity; lra. Qed.
Lemma spd_test3 q : symmetric_positive 3 (table K3 q).
Proof. eapply (spd3 _ (4321/1000) 1 (1/2) (1234/1000) 1 (11/10)); try reflexivity; lra. Qed.
Lemma spd_2012_1 q : symmetric_positive 2 (table [2; 125/100; 125/100; 3] q).
Proof. eapply (spd2 _ 2 (125/100) 3); try reflexivity; lra. Qed.
Lemma spd_2006_2 q : symmetric_positive 2 (fun k => nth k [4 + (q 0%nat + 2)^2 + (q 1%nat)^2; 1 + sin (q 0%nat * q 1%nat); 1 + sin (q 0%nat * q 1%nat); 2] 0).
Proof.
  eapply (spd2 _ (4 + (q 0%nat + 2)^2 + (q 1%nat)^2) (1 + sin (q 0%nat * q 1%nat)) 2); try reflexivity.
  - pose proof (pow2_ge_0 (q 0%nat + 2)). pose proof (pow2_ge_0 (q 1%nat)). lra.
  - pose proof (SIN_bound (q 0%nat * q 1%nat)). pose proof (pow2_ge_0 (q 0%nat + 2)). pose proof (pow2_ge_0 (q 1%nat)). nra.
Qed.
Lemma spd_alpha a q : symmetric_positive 3 (table [a; 1; 1; 1; 2; 1; 1; 1; 2] q) <-> 2/3 < a.
Proof.
  split.
  - intros [_ H]. specialize (H (fun k => match k with 0%nat => 3 | _ => -1 end)).
    cbn in H. assert (HH := H ltac:(exists 0%nat; split; [lia|lra])). lra.
  - intros H. eapply (spd3 _ a 1 1 2 1 2); try reflexivity; nra.
Qed.
