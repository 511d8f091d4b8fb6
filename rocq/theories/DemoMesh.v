(** Proofs about Demo: the selection of the functions and the deformations of the mesh. *)
From Coq Require Import Reals List Arith Lia Lra Psatz.
From Coquelicot Require Import Coquelicot.
From Verif Require Import Prelude Arrays Demo SpecDemo DemoProofs DemoFields DemoFields2 DemoRest.
Import ListNotations.
Local Open Scope R_scope.

Lemma solution_point d K p a b c e : (d <= 3)%nat -> solution d K p a b c e -> point_solution d K p a b c e.
Proof.
  intros Hd (v & f & A & B & C & D & E). exists v, f. split; [exact A|]. split; [exact B|].
  split; [apply fills_gives; assumption|]. split; assumption.
Qed.
Definition fine (d : nat) (alpha : R) (s : setup) : Prop :=
  exists K p, point_solution d K p (s_perm s) (s_pressure s) (s_velocity s) (s_forcing s) /\ (2/3 < alpha -> forall q, symmetric_positive d (K q)).
Lemma selected alpha p d problem s : d = 2%nat \/ d = 3%nat -> select alpha p d problem = Ok (Some s) -> fine d alpha s.
Proof.
  assert (F0 : fine 2 alpha (mkSetup PermTest2D ForcingConstant PressureConstant VelocityConstant)).
  { do 2 eexists. split; [apply constant2D, PermTest2D_fills|]. intros _. exact spd_test2. }
  assert (F1 : fine 2 alpha (mkSetup PermWheeler2006_1 ForcingWheeler2006_1 PressureWheeler2006_1 VelocityWheeler2006_1)).
  { do 2 eexists. split; [apply solution_point; [lia|]; apply wheeler2006_1_any, PermWheeler2006_1_fills|]. intros _. exact spd_test2. }
  assert (F2 : fine 2 alpha (mkSetup PermWheeler2006_2 ForcingWheeler2006_2 PressureWheeler2006_2 VelocityWheeler2006_2)).
  { do 2 eexists. split; [apply solution_point; [lia|]; exact wheeler2006_2|]. intros _. exact spd_2006_2. }
  assert (F3 : fine 2 alpha (mkSetup PermWheeler2012_1 ForcingWheeler2012_1 PressureWheeler2012_1 VelocityWheeler2012_1)).
  { do 2 eexists. split; [exact wheeler2012_1|]. intros _. exact spd_2012_1. }
  assert (F4 : fine 3 alpha (mkSetup (PermWheeler2012_2 alpha) (ForcingWheeler2012_2 alpha) PressureWheeler2012_2 (VelocityWheeler2012_2 alpha))).
  { do 2 eexists. split; [apply solution_point; [lia|]; exact (wheeler2012_2 alpha)|]. intros H q. apply spd_alpha, H. }
  assert (F5 : fine 3 alpha (mkSetup (PermWheeler2012_2 alpha) ForcingConstant PressureConstant VelocityConstant)).
  { do 2 eexists. split; [apply solution_point; [lia|]; apply constant3D, PermWheeler2012_2_fills|]. intros H q. apply spd_alpha, H. }
  assert (F6 : fine 2 alpha (mkSetup PermTest2D ForcingQuadratic2D PressureQuadratic2D VelocityQuadratic2D)).
  { do 2 eexists. split; [apply solution_point; [lia|]; exact quadratic2D|]. intros _. exact spd_test2. }
  assert (F7 : fine 2 alpha (mkSetup PermTest2D ForcingWheeler2006_1 PressureWheeler2006_1 VelocityWheeler2006_1)).
  { do 2 eexists. split; [apply solution_point; [lia|]; apply wheeler2006_1_any, PermTest2D_fills|]. intros _. exact spd_test2. }
  assert (F8 : fine 3 alpha (mkSetup (PermWheeler2012_2 alpha) (Forcing3 alpha) Pressure3 (Velocity3 alpha))).
  { do 2 eexists. split; [apply solution_point; [lia|]; exact (problem3 alpha)|]. intros H q. apply spd_alpha, H. }
  intros [-> | ->] E; destruct p; destruct problem as [|[|[|[|[|pr]]]]]; cbn in E; try discriminate E; injection E as <-; assumption.
Qed.

(** * Meshes *)
Lemma sin_close a b : Rabs (sin a - sin b) <= Rabs (a - b).
Proof.
  destruct (MVT_gen sin b a cos) as (c & _ & E).
  - intros x _. auto_derive; [exact I|ring].
  - intros x _. apply continuity_pt_filterlim. apply continuous_sin.
  - rewrite E, Rabs_mult. pose proof (COS_bound c). pose proof (Rabs_pos (a - b)).
    assert (Rabs (cos c) <= 1) by (apply Rabs_le; lra). nra.
Qed.
Lemma PI_le_4 : PI <= 4.
Proof. exact PI_4. Qed.

Lemma prod_close a b a' b' : Rabs (sin a * sin b - sin a' * sin b') <= Rabs (a - a') + Rabs (b - b').
Proof.
  replace (sin a * sin b - sin a' * sin b') with ((sin a - sin a') * sin b + sin a' * (sin b - sin b')) by ring.
  eapply Rle_trans; [apply Rabs_triang|]. rewrite !Rabs_mult.
  pose proof (SIN_bound a'). pose proof (SIN_bound b).
  assert (Rabs (sin a') <= 1) by (apply Rabs_le; lra). assert (Rabs (sin b) <= 1) by (apply Rabs_le; lra).
  pose proof (sin_close a a'). pose proof (sin_close b b').
  pose proof (Rabs_pos (sin a - sin a')). pose proof (Rabs_pos (sin b - sin b')). pose proof (Rabs_pos (sin a')). pose proof (Rabs_pos (sin b)). nra.
Qed.
Lemma smooth2_injective x y x' y' : smooth2 x y = smooth2 x' y' -> x = x' /\ y = y'.
Proof.
  unfold smooth2. intros H. injection H as H1 H2.
  pose proof (prod_close (2*PI*x) (2*PI*y) (2*PI*x') (2*PI*y')) as P.
  set (h := sin (2*PI*x) * sin (2*PI*y)) in *. set (h' := sin (2*PI*x') * sin (2*PI*y')) in *.
  assert (D1 : x - x' = - (6/100 * (h - h'))) by (unfold h, h'; lra). assert (D2 : y - y' = 5/100 * (h - h')) by (unfold h, h'; lra).
  replace (2*PI*x - 2*PI*x') with (2*PI*(x - x')) in P by ring. replace (2*PI*y - 2*PI*y') with (2*PI*(y - y')) in P by ring.
  rewrite D1, D2, !Rabs_mult, Rabs_Ropp, !Rabs_mult in P.
  pose proof PI_RGT_0. pose proof PI_le_4.
  rewrite (Rabs_right 2), (Rabs_right PI), (Rabs_right (6/100)), (Rabs_right (5/100)) in P by lra.
  pose proof (Rabs_pos (h - h')) as N.
  assert (Z : Rabs (h - h') = 0) by nra.
  assert (E : h - h' = 0) by (destruct (Req_dec (h - h') 0) as [E|E]; [exact E|apply Rabs_no_R0 in E; contradiction]).
  rewrite E in D1, D2. lra.
Qed.

Lemma triple a b c : sin a * cos b * cos c = (sin (a + b + c) + sin (a + b - c) + sin (a - b + c) + sin (a - b - c)) / 4.
Proof.
  replace (a + b - c) with (a + b + - c) by ring. replace (a - b + c) with (a + - b + c) by ring. replace (a - b - c) with (a + - b + - c) by ring.
  rewrite !sin_plus, !cos_plus, !sin_neg, !cos_neg, ?sin_plus, ?cos_plus, ?sin_neg, ?cos_neg. field.
Qed.
Lemma four a b c M : Rabs a <= M -> Rabs b <= M -> Rabs c <= M -> Rabs (a + b + c) + Rabs (a + b - c) + Rabs (a - b + c) + Rabs (a - b - c) <= 6 * M.
Proof.
  intros A B C. apply Rabs_le_between in A, B, C.
  unfold Rabs. destruct (Rcase_abs (a + b + c)), (Rcase_abs (a + b - c)), (Rcase_abs (a - b + c)), (Rcase_abs (a - b - c)); lra.
Qed.
Lemma triple_close a b c a' b' c' M : Rabs (a - a') <= M -> Rabs (b - b') <= M -> Rabs (c - c') <= M ->
  Rabs (sin a * cos b * cos c - sin a' * cos b' * cos c') <= 3/2 * M.
Proof.
  intros A B C. rewrite !triple.
  set (p := sin (a + b + c) - sin (a' + b' + c')). set (q := sin (a + b - c) - sin (a' + b' - c')).
  set (r := sin (a - b + c) - sin (a' - b' + c')). set (s := sin (a - b - c) - sin (a' - b' - c')).
  match goal with |- Rabs ?X <= _ => replace X with ((p + q + r + s) / 4) by (unfold p, q, r, s; field) end.
  assert (P1 : Rabs p <= Rabs ((a - a') + (b - b') + (c - c'))) by (eapply Rle_trans; [apply sin_close|right; f_equal; ring]).
  assert (P2 : Rabs q <= Rabs ((a - a') + (b - b') - (c - c'))) by (eapply Rle_trans; [apply sin_close|right; f_equal; ring]).
  assert (P3 : Rabs r <= Rabs ((a - a') - (b - b') + (c - c'))) by (eapply Rle_trans; [apply sin_close|right; f_equal; ring]).
  assert (P4 : Rabs s <= Rabs ((a - a') - (b - b') - (c - c'))) by (eapply Rle_trans; [apply sin_close|right; f_equal; ring]).
  pose proof (four _ _ _ M A B C). unfold Rdiv. rewrite Rabs_mult, (Rabs_right (/4)) by lra.
  pose proof (Rabs_triang (p + q + r) s). pose proof (Rabs_triang (p + q) r). pose proof (Rabs_triang p q). lra.
Qed.
Lemma smooth3_injective x y z x' y' z' : smooth3 x y z = smooth3 x' y' z' -> x = x' /\ y = y' /\ z = z'.
Proof.
  unfold smooth3. intros H. injection H as H1 H2 H3.
  set (M := Rmax (Rabs (x - x')) (Rmax (Rabs (y - y')) (Rabs (z - z')))).
  assert (X : Rabs (x - x') <= M) by apply Rmax_l.
  assert (Y : Rabs (y - y') <= M) by (eapply Rle_trans; [apply Rmax_l|apply Rmax_r]).
  assert (Z : Rabs (z - z') <= M) by (eapply Rle_trans; [apply Rmax_r|apply Rmax_r]).
  assert (M0 : 0 <= M) by (eapply Rle_trans; [apply Rabs_pos|exact X]).
  pose proof PI_RGT_0 as P0. pose proof PI_le_4 as P4.
  assert (S : forall u u', Rabs (u - u') <= M -> Rabs (3*PI*u - 3*PI*u') <= 12 * M).
  { intros u u' U. replace (3*PI*u - 3*PI*u') with (3*PI*(u - u')) by ring. rewrite Rabs_mult, (Rabs_right (3*PI)) by lra.
    pose proof (Rabs_pos (u - u')). apply Rmult_le_compat; lra. }
  pose proof (triple_close _ _ _ _ _ _ _ (S _ _ X) (S _ _ Y) (S _ _ Z)) as T1.
  pose proof (triple_close _ _ _ _ _ _ _ (S _ _ Y) (S _ _ X) (S _ _ Z)) as T2.
  pose proof (triple_close _ _ _ _ _ _ _ (S _ _ Z) (S _ _ X) (S _ _ Y)) as T3.
  match type of T1 with Rabs ?t <= _ => assert (D1 : x - x' = - (3/100 * t)) by (ring_simplify in H1; lra) end.
  match type of T2 with Rabs ?t <= _ => assert (D2 : y - y' = 4/100 * t) by lra end.
  match type of T3 with Rabs ?t <= _ => assert (D3 : z - z' = - (5/100 * t)) by lra end.
  assert (C : M <= 9/10 * M).
  { unfold M at 1. apply Rmax_lub; [|apply Rmax_lub].
    - rewrite D1, Rabs_Ropp, Rabs_mult, (Rabs_right (3/100)) by lra. lra.
    - rewrite D2, Rabs_mult, (Rabs_right (4/100)) by lra. lra.
    - rewrite D3, Rabs_Ropp, Rabs_mult, (Rabs_right (5/100)) by lra. lra. }
  assert (E : M = 0) by lra. rewrite E in X, Y, Z.
  assert (N : forall u, Rabs u <= 0 -> u = 0).
  { intros u U. apply Rabs_le_between in U. lra. }
  apply N in X, Y, Z. lra.
Qed.

(** A coordinate stays on its side of the box. *)
Lemma sin_0_close u : Rabs (sin u) <= Rabs u.
Proof. pose proof (sin_close u 0) as H. rewrite sin_0, !Rminus_0_r in H. exact H. Qed.
Lemma sin_npi n u : sin (INR n * PI * 1) = 0 -> Rabs (sin (INR n * PI * u)) <= INR n * PI * Rabs (1 - u).
Proof.
  intros H. pose proof (sin_close (INR n * PI * u) (INR n * PI * 1)) as C. rewrite H, Rminus_0_r in C.
  eapply Rle_trans; [exact C|]. right. replace (INR n * PI * u - INR n * PI * 1) with (- (INR n * PI * (1 - u))) by ring.
  rewrite Rabs_Ropp, Rabs_mult. f_equal. apply Rabs_right. pose proof PI_RGT_0. pose proof (pos_INR n). nra.
Qed.
Lemma sin_1 n : sin (INR n * PI * 1) = 0.
Proof. rewrite Rmult_1_r. apply (sin_eq_0_1 (INR n * PI)). exists (Z.of_nat n). rewrite <- INR_IZR_INZ. reflexivity. Qed.
Lemma stays n e u r : 0 <= u <= 1 -> 0 <= e -> e * INR n * 4 <= 1 -> Rabs r <= 1 -> 0 <= u + e * (sin (INR n * PI * u) * r) <= 1.
Proof.
  intros Hu He Hn Hr.
  pose proof (sin_npi n u (sin_1 n)) as A. pose proof (sin_0_close (INR n * PI * u)) as B.
  pose proof PI_RGT_0. pose proof PI_le_4. pose proof (pos_INR n).
  rewrite (Rabs_right (1 - u)) in A by lra.
  assert (0 <= INR n * PI) by nra.
  rewrite (Rabs_right (INR n * PI * u)) in B by nra.
  set (s := sin (INR n * PI * u)) in *.
  assert (S : Rabs (s * r) <= Rabs s) by (rewrite Rabs_mult; pose proof (Rabs_pos s); pose proof (Rabs_pos r); nra).
  assert (T : e * (INR n * PI) <= 1).
  { apply Rle_trans with (e * INR n * 4); [|exact Hn]. rewrite <- Rmult_assoc. apply Rmult_le_compat_l; nra. }
  assert (U1 : e * Rabs (s * r) <= u).
  { apply Rle_trans with (e * (INR n * PI) * u); [|nra]. rewrite Rmult_assoc. apply Rmult_le_compat_l; [exact He|]. lra. }
  assert (U2 : e * Rabs (s * r) <= 1 - u).
  { apply Rle_trans with (e * (INR n * PI) * (1 - u)); [|nra]. rewrite Rmult_assoc. apply Rmult_le_compat_l; [exact He|]. lra. }
  pose proof (Rle_abs (s * r)). pose proof (Rle_abs (- (s * r))) as V. rewrite Rabs_Ropp in V. split; nra.
Qed.
Lemma box_side n e u r : u = 0 \/ u = 1 -> u + e * (sin (INR n * PI * u) * r) = u.
Proof. intros [-> | ->]; [rewrite Rmult_0_r, sin_0|rewrite sin_1]; ring. Qed.
Lemma sc_bound a b : Rabs a <= 1 -> Rabs b <= 1 -> Rabs (a * b) <= 1.
Proof. intros. rewrite Rabs_mult. pose proof (Rabs_pos a). pose proof (Rabs_pos b). nra. Qed.
Lemma sin_1b a : Rabs (sin a) <= 1. Proof. apply Rabs_le. pose proof (SIN_bound a). lra. Qed.
Lemma cos_1b a : Rabs (cos a) <= 1. Proof. apply Rabs_le. pose proof (COS_bound a). lra. Qed.

Lemma unit_side_of n e u r : 0 <= e -> e * INR n * 4 <= 1 -> Rabs r <= 1 -> unit_side u (u + e * (sin (INR n * PI * u) * r)).
Proof.
  intros He Hn Hr. split; [intros; apply stays; assumption|]. split; intros ->; [apply (box_side n e 0 r)|apply (box_side n e 1 r)]; auto.
Qed.
Lemma smooth2_box x y : unit_side x (fst (smooth2 x y)) /\ unit_side y (snd (smooth2 x y)).
Proof.
  unfold smooth2; cbn [fst snd]. change 2 with (INR 2). split.
  - replace (x + 6/100 * sin (INR 2*PI*x) * sin (INR 2*PI*y)) with (x + 6/100 * (sin (INR 2*PI*x) * sin (INR 2*PI*y))) by ring.
    apply unit_side_of; [lra|cbn; lra|apply sin_1b].
  - replace (y - 5/100 * sin (INR 2*PI*x) * sin (INR 2*PI*y)) with (y + 5/100 * (sin (INR 2*PI*y) * - sin (INR 2*PI*x))) by ring.
    apply unit_side_of; [lra|cbn; lra|rewrite Rabs_Ropp; apply sin_1b].
Qed.
Lemma smooth3_box x y z : unit_side x (fst (fst (smooth3 x y z))) /\ unit_side y (snd (fst (smooth3 x y z))) /\ unit_side z (snd (smooth3 x y z)).
Proof.
  unfold smooth3; cbn [fst snd]. assert (I3 : 3 = INR 3) by (cbn; ring).
  split; [|split].
  - replace (x + 3/100 * sin (3*PI*x) * cos (3*PI*y) * cos (3*PI*z)) with (x + 3/100 * (sin (INR 3*PI*x) * (cos (3*PI*y) * cos (3*PI*z)))) by (rewrite <- I3; ring).
    apply unit_side_of; [lra|cbn; lra|apply sc_bound; apply cos_1b].
  - replace (y - 4/100 * cos (3*PI*x) * sin (3*PI*y) * cos (3*PI*z)) with (y + 4/100 * (sin (INR 3*PI*y) * (- cos (3*PI*x) * cos (3*PI*z)))) by (rewrite <- I3; ring).
    apply unit_side_of; [lra|cbn; lra|apply sc_bound; [rewrite Rabs_Ropp|]; apply cos_1b].
  - replace (z + 5/100 * cos (3*PI*x) * cos (3*PI*y) * sin (3*PI*z)) with (z + 5/100 * (sin (INR 3*PI*z) * (cos (3*PI*x) * cos (3*PI*y)))) by (rewrite <- I3; ring).
    apply unit_side_of; [lra|cbn; lra|apply sc_bound; apply cos_1b].
Qed.

(** The mesh of Wheeler 2006. *)
Definition gl (x : R) := if Rlt_dec x (1/2) then -48/10*x*x + 2*x + 7/10 else 75/100*x + 125/1000.
Lemma lower2_eq x y : lower2 x y = (x, gl x * y).
Proof. unfold lower2, gl. destruct (Rlt_dec x (1/2)); reflexivity. Qed.
Lemma gl_bounds x : 0 <= x <= 1 -> 1/2 <= gl x <= 1.
Proof. intros H. unfold gl. destruct (Rlt_dec x (1/2)); nra. Qed.
Lemma gl_close x x' : 0 <= x <= 1 -> 0 <= x' <= 1 -> Rabs (gl x - gl x') <= 3 * Rabs (x - x').
Proof.
  assert (W : forall x x', 0 <= x -> x' <= 1 -> x <= x' -> - (3 * (x' - x)) <= gl x - gl x' <= 3 * (x' - x)).
  { clear. intros x x' H0 H1 H. unfold gl. destruct (Rlt_dec x (1/2)), (Rlt_dec x' (1/2)); nra. }
  intros H H'. destruct (Rle_lt_dec x x') as [L|L].
  - specialize (W x x' ltac:(lra) ltac:(lra) L). rewrite (Rabs_left1 (x - x')) by lra. apply Rabs_le. lra.
  - specialize (W x' x ltac:(lra) ltac:(lra) ltac:(lra)). rewrite (Rabs_right (x - x')) by lra. apply Rabs_le. lra.
Qed.
Lemma lower2_injective x y x' y' : 0 <= x <= 1 -> lower2 x y = lower2 x' y' -> x = x' /\ y = y'.
Proof.
  intros H E. rewrite !lower2_eq in E. injection E as <- E. split; [reflexivity|]. pose proof (gl_bounds x H).
  apply Rmult_eq_reg_l in E; [exact E|lra].
Qed.
Lemma lower2_box x y : 0 <= x <= 1 -> 0 <= y <= 1 -> fst (lower2 x y) = x /\ y / 2 <= snd (lower2 x y) <= y.
Proof. intros H Hy. rewrite lower2_eq. cbn [fst snd]. pose proof (gl_bounds x H). split; [reflexivity|]. split; nra. Qed.
Lemma lower2_close x x' y : 0 <= x <= 1 -> 0 <= x' <= 1 -> 0 <= y <= 1 -> Rabs (snd (lower2 x y) - snd (lower2 x' y)) <= 3 * Rabs (x - x').
Proof.
  intros H H' Hy. rewrite !lower2_eq. cbn [snd]. replace (gl x * y - gl x' * y) with ((gl x - gl x') * y) by ring.
  rewrite Rabs_mult, (Rabs_right y) by lra. pose proof (gl_close x x' H H'). pose proof (Rabs_pos (gl x - gl x')). nra.
Qed.
