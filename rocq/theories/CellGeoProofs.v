From Coq Require Import Reals List ZArith Lra Lia Bool.
From Verif Require Import Prelude Arrays Geom SpecGeom UGrid FaceGeo SpecFaceGeo FaceGeoProofs CellGeo SpecCellGeo.
Import ListNotations.
Local Open Scope R_scope.

(** ** Tetrahedra *)

Definition T (a b c d : v3) : R := triple (vsub b a) (vsub c a) (vsub d a).
Ltac flat := unfold height, T, triple, dot, cross, vsub, vscale in *; cbn [vx vy vz] in *.
Lemma tet_volume a b c d : VolumeofTetrahedron a b c d = Rabs (T a b c d) / 6.
Proof.
  unfold VolumeofTetrahedron, DotProduct, CrossProduct. flat. f_equal.
  rewrite <- (Rabs_Ropp (_ * _ + _ * _ + _ * _)). f_equal. ring.
Qed.
Lemma dot_scale n m k : dot (vscale k n) m = k * dot n m.
Proof. flat. ring. Qed.
Lemma T_cross a b c d : T a b c d = dot (cross (vsub b a) (vsub c b)) (vsub d a).
Proof. flat. ring. Qed.
Lemma behind n a b c p : turns n a b c -> height n a p < 0 -> T a b c p < 0.
Proof.
  intros [k [Hk E]] H. rewrite T_cross, E, dot_scale. unfold height in H. nra.
Qed.
Lemma same_height n a b p : height n a b = 0 -> height n a p = height n b p.
Proof. intro H. replace (height n a p) with (height n b p + height n a b) by (flat; ring). lra. Qed.
Lemma quad_level n a b c d : polygon n [a; b; c; d] -> height n a b = 0 /\ height n a c = 0 /\ height n a d = 0.
Proof.
  intros [_ [H1 [H2 _]]]. pose proof (turn_flat n a b c a H1) as [E1 E2]. pose proof (turn_flat n b c d a H2) as [_ E3].
  assert (E0 : height n a a = 0) by (flat; ring). lra.
Qed.
Lemma tri_level n a b c : polygon n [a; b; c] -> height n a b = 0 /\ height n a c = 0.
Proof.
  intros [_ H1]. pose proof (turn_flat n a b c a H1) as [E1 E2].
  assert (E0 : height n a a = 0) by (flat; ring). lra.
Qed.
Lemma quad_flat n a b c d : polygon n [a; b; c; d] -> T a b c d = 0.
Proof.
  intro H. destruct (quad_level n a b c d H) as [_ [_ E]]. destruct H as [_ [[k [Hk Ek]] _]].
  rewrite T_cross, Ek, dot_scale. unfold height in E. rewrite E. ring.
Qed.
(** A vector orthogonal to... parallel to two independent vectors is zero. *)
Lemma no_vector u v z n k : unit n -> k <> 0 -> cross u v = vscale k n -> cross z u = origin -> cross z v = origin -> z = origin.
Proof.
  intros Hn Hk E E1 E2. destruct u as [u1 u2 u3], v as [a1 a2 a3], z as [z1 z2 z3], n as [n1 n2 n3].
  unfold unit, origin in *. flat. injection E as X1 X2 X3. injection E1 as Y1 Y2 Y3. injection E2 as W1 W2 W3.
  assert (N : n1 <> 0 \/ n2 <> 0 \/ n3 <> 0).
  { destruct (Req_dec n1 0) as [N1|N1]; [|auto]. destruct (Req_dec n2 0) as [N2|N2]; [|auto]. right. right. intro N3. subst. lra. }
  assert (Z1 : z1 * (k * n1) = 0) by (rewrite <- X1; replace (z1 * (u2 * a3 - u3 * a2)) with (u1 * (z2 * a3 - z3 * a2) + a2 * - (z1 * u3 - z3 * u1) + a3 * (z1 * u2 - z2 * u1)) by ring;
    replace (z1 * u3 - z3 * u1) with (- (z3 * u1 - z1 * u3)) by ring; rewrite Y2, Y3, W1; ring).
  assert (Z2 : z1 * (k * n2) = 0) by (rewrite <- X2; replace (z1 * (u3 * a1 - u1 * a3)) with (u1 * (z3 * a1 - z1 * a3) + a1 * - (z3 * u1 - z1 * u3)) by ring; rewrite Y2, W2; ring).
  assert (Z3 : z1 * (k * n3) = 0) by (rewrite <- X3; replace (z1 * (u1 * a2 - u2 * a1)) with (u1 * (z1 * a2 - z2 * a1) - a1 * (z1 * u2 - z2 * u1)) by ring; rewrite Y3, W3; ring).
  assert (Z4 : z2 * (k * n1) = 0) by (rewrite <- X1; replace (z2 * (u2 * a3 - u3 * a2)) with (u2 * (z2 * a3 - z3 * a2) - a2 * (z2 * u3 - z3 * u2)) by ring; rewrite Y1, W1; ring).
  assert (Z5 : z2 * (k * n2) = 0) by (rewrite <- X2; replace (z2 * (u3 * a1 - u1 * a3)) with (u2 * (z3 * a1 - z1 * a3) + a1 * (z2 * u3 - z3 * u2) + a3 * (z1 * u2 - z2 * u1)) by ring; rewrite Y1, Y3, W2; ring).
  assert (Z6 : z2 * (k * n3) = 0) by (rewrite <- X3; replace (z2 * (u1 * a2 - u2 * a1)) with (u2 * (z1 * a2 - z2 * a1) - a2 * (z1 * u2 - z2 * u1)) by ring; rewrite Y3, W3; ring).
  assert (Z7 : z3 * (k * n1) = 0) by (rewrite <- X1; replace (z3 * (u2 * a3 - u3 * a2)) with (u3 * (z2 * a3 - z3 * a2) - a3 * (z2 * u3 - z3 * u2)) by ring; rewrite Y1, W1; ring).
  assert (Z8 : z3 * (k * n2) = 0) by (rewrite <- X2; replace (z3 * (u3 * a1 - u1 * a3)) with (u3 * (z3 * a1 - z1 * a3) - a3 * (z3 * u1 - z1 * u3)) by ring; rewrite Y2, W2; ring).
  assert (Z9 : z3 * (k * n3) = 0) by (rewrite <- X3; replace (z3 * (u1 * a2 - u2 * a1)) with (u3 * (z1 * a2 - z2 * a1) + a2 * (z3 * u1 - z1 * u3) + a1 * (z2 * u3 - z3 * u2)) by ring; rewrite Y1, Y2, W3; ring).
  assert (C : forall z, z * (k * n1) = 0 -> z * (k * n2) = 0 -> z * (k * n3) = 0 -> z = 0).
  { intros z A1 A2 A3. destruct N as [N|[N|N]]; [clear A2 A3; rename A1 into A|clear A1 A3; rename A2 into A|clear A1 A2; rename A3 into A];
      apply Rmult_integral in A; destruct A as [A|A]; auto; apply Rmult_integral in A; destruct A; contradiction. }
  f_equal; apply C; assumption.
Qed.
(** The corner of a convex quadrilateral that is opposite to the first one. *)
Lemma opposite_corner n a b c d : polygon n [a; b; c; d] ->
  exists s t, 0 < s /\ 0 < t /\ vsub c a = vadd (vscale s (vsub b a)) (vscale t (vsub d a)).
Proof.
  intros [Hn [[k1 [P1 X1]] [_ [[k2 [P2 X2]] [k3 [P3 X3]]]]]].
  exists (k2 / k3), (k1 / k3). split; [apply Rdiv_lt_0_compat; lra|]. split; [apply Rdiv_lt_0_compat; lra|].
  assert (Y1 : cross (vsub b a) (vsub c a) = vscale k1 n) by (rewrite <- X1; flat; f_equal; ring).
  assert (Y2 : cross (vsub c a) (vsub d a) = vscale k2 n) by (rewrite <- X2; flat; f_equal; ring).
  assert (Y3 : cross (vsub b a) (vsub d a) = vscale k3 n) by (rewrite <- X3; flat; f_equal; ring).
  clear X1 X2 X3. set (u := vsub b a) in *. set (v := vsub d a) in *. set (w := vsub c a) in *. clearbody u v w.
  set (z := vsub w (vadd (vscale (k2 / k3) u) (vscale (k1 / k3) v))).
  assert (Z : z = origin).
  { apply (no_vector u v z n k3 Hn); [lra|exact Y3| |].
    - assert (E : cross z u = vadd (vscale (-1) (cross u w)) (vscale (k1 / k3) (cross u v))) by (unfold z; flat; unfold vadd; cbn [vx vy vz]; f_equal; ring).
      rewrite E, Y1, Y3. unfold vadd, vscale, origin; cbn [vx vy vz]; f_equal; field; lra.
    - assert (E : cross z v = vadd (cross w v) (vscale (- (k2 / k3)) (cross u v))) by (unfold z; flat; unfold vadd; cbn [vx vy vz]; f_equal; ring).
      rewrite E, Y2, Y3. unfold vadd, vscale, origin; cbn [vx vy vz]; f_equal; field; lra. }
  unfold z in Z. clear - Z. destruct w as [w1 w2 w3]. unfold vsub, vadd, vscale, origin in *. cbn [vx vy vz] in *.
  injection Z as Z1 Z2 Z3. f_equal; lra.
Qed.
Lemma beyond a p q b c d s t : vsub c a = vadd (vscale s (vsub b a)) (vscale t (vsub d a)) ->
  T a p q c = s * T a p q b + t * T a p q d.
Proof. intro E. unfold T. rewrite E. unfold vadd. flat. ring. Qed.

Lemma neg_tet a b c d x : x < 0 -> (T a b c d = x \/ T a b c d = - x) -> VolumeofTetrahedron a b c d = - x / 6.
Proof.
  intros H E. rewrite tet_volume. destruct E as [E|E]; rewrite E; [rewrite Rabs_left by lra|rewrite Rabs_right by lra]; reflexivity.
Qed.

(** ** The four kinds of cells *)

Ltac face H s name := let n := fresh "n" in let P := fresh "P" in
  destruct (H s) as [n [P name]]; [cbn; tauto|]; cbn [pick map nth hd] in P, name.
Ltac other O i := let X := fresh "X" in
  pose proof (O i) as X; cbn [nth] in X; specialize (X ltac:(lia) ltac:(cbn; lia)).

Lemma tet_cell a b c d : convex_cell [a; b; c; d] -> forall o, VolumeofTetrahedron a b c d = volume o [a; b; c; d] /\ 0 < VolumeofTetrahedron a b c d.
Proof.
  intros [_ H] o. cbn [length sides] in H.
  face H [0; 2; 1]%nat O1. other O1 3%nat. destruct P as [_ P].
  pose proof (behind _ _ _ _ _ P X) as B.
  rewrite (neg_tet a b c d _ B) by (right; flat; ring). split; [|lra].
  unfold volume. cbn [length sides map pick nth pyramid fan sum]. flat. field.
Qed.
Lemma pyramid_cell a b c d e : convex_cell [a; b; c; d; e] -> forall o,
  0 + VolumeofTetrahedron a b c e + VolumeofTetrahedron c d a e = volume o [a; b; c; d; e] /\ 0 < 0 + VolumeofTetrahedron a b c e + VolumeofTetrahedron c d a e.
Proof.
  intros [_ H] o. cbn [length sides] in H.
  face H [0; 3; 2; 1]%nat O1. other O1 4%nat. pose proof (quad_flat _ _ _ _ _ P) as F.
  destruct (quad_level _ _ _ _ _ P) as [L1 [L2 L3]]. destruct P as [_ [P1 [P2 [P3 P4]]]].
  pose proof (behind _ _ _ _ _ P1 X) as B1.
  rewrite (same_height _ _ _ _ L2) in X. pose proof (behind _ _ _ _ _ P3 X) as B2.
  rewrite (neg_tet a b c e _ B2) by (right; flat; ring). rewrite (neg_tet c d a e _ B1) by (right; flat; ring). split; [|lra].
  unfold volume. cbn [length sides map pick nth pyramid fan sum]. flat. field.
Qed.
Lemma wedge_cell p0 p1 p2 p3 p4 p5 : convex_cell [p0; p1; p2; p3; p4; p5] -> forall o,
  0 + VolumeofTetrahedron p0 p1 p2 p3 + VolumeofTetrahedron p2 p3 p4 p5 + VolumeofTetrahedron p1 p2 p3 p4 = volume o [p0; p1; p2; p3; p4; p5] /\
  0 < 0 + VolumeofTetrahedron p0 p1 p2 p3 + VolumeofTetrahedron p2 p3 p4 p5 + VolumeofTetrahedron p1 p2 p3 p4.
Proof.
  intros [_ H] o. cbn [length sides] in H.
  face H [0; 2; 1]%nat O1. other O1 3%nat. destruct P as [_ P]. pose proof (behind _ _ _ _ _ P X) as B1. clear P X O1 n.
  face H [3; 4; 5]%nat O1. other O1 2%nat. destruct P as [_ P]. pose proof (behind _ _ _ _ _ P X) as B2. clear P X O1 n.
  face H [0; 1; 4; 3]%nat O1. other O1 2%nat. pose proof (quad_flat _ _ _ _ _ P) as F1.
  destruct (quad_level _ _ _ _ _ P) as [L1 [L2 L3]]. destruct P as [_ [P1 [P2 _]]].
  rewrite (same_height _ _ _ _ L1) in X. pose proof (behind _ _ _ _ _ P2 X) as B3. clear P1 P2 X O1 n L1 L2 L3.
  face H [1; 2; 5; 4]%nat O1. pose proof (quad_flat _ _ _ _ _ P) as F2. clear P O1 n.
  face H [2; 0; 3; 5]%nat O1. pose proof (quad_flat _ _ _ _ _ P) as F3. clear P O1 n.
  rewrite (neg_tet p0 p1 p2 p3 _ B1) by (right; flat; ring). rewrite (neg_tet p2 p3 p4 p5 _ B2) by (right + left; flat; ring).
  rewrite (neg_tet p1 p2 p3 p4 _ B3) by (right + left; flat; ring). split; [|lra].
  replace (volume o [p0; p1; p2; p3; p4; p5]) with (0 + - T p0 p2 p1 p3 / 6 + - T p3 p4 p5 p2 / 6 + - T p1 p4 p3 p2 / 6 - T p0 p1 p4 p3 / 6 - T p1 p2 p5 p4 / 6).
  - rewrite F1, F2. field.
  - unfold volume. cbn [length sides map pick nth pyramid fan sum]. clear. flat. field.
Qed.
Lemma hex_cell p0 p1 p2 p3 p4 p5 p6 p7 : convex_cell [p0; p1; p2; p3; p4; p5; p6; p7] -> forall o,
  0 + VolumeofTetrahedron p0 p1 p2 p5 + VolumeofTetrahedron p0 p5 p7 p4 + VolumeofTetrahedron p0 p5 p2 p7 + VolumeofTetrahedron p7 p5 p2 p6 + VolumeofTetrahedron p0 p2 p3 p7
    = volume o [p0; p1; p2; p3; p4; p5; p6; p7] /\
  0 < 0 + VolumeofTetrahedron p0 p1 p2 p5 + VolumeofTetrahedron p0 p5 p7 p4 + VolumeofTetrahedron p0 p5 p2 p7 + VolumeofTetrahedron p7 p5 p2 p6 + VolumeofTetrahedron p0 p2 p3 p7.
Proof.
  intros [_ H] o. cbn [length sides] in H.
  (* bottom *)
  face H [0; 3; 2; 1]%nat O1. other O1 5%nat. other O1 7%nat.
  destruct (quad_level _ _ _ _ _ P) as [L1 [L2 L3]]. destruct P as [_ [P1 [P2 [P3 P4]]]].
  rewrite (same_height _ _ _ _ L2) in X. pose proof (behind _ _ _ _ _ P3 X) as B1.
  pose proof (behind _ _ _ _ _ P1 X0) as B4.
  rewrite (same_height _ _ _ _ L2) in X0. pose proof (behind _ _ _ _ _ P3 X0) as C1. clear P1 P2 P3 P4 X X0 O1 n L1 L2 L3.
  (* top *)
  face H [4; 5; 6; 7]%nat O1. other O1 0%nat. other O1 2%nat. pose proof (quad_flat _ _ _ _ _ P) as F1.
  destruct (quad_level _ _ _ _ _ P) as [L1 [L2 L3]]. destruct P as [_ [P1 [P2 [P3 P4]]]].
  rewrite (same_height _ _ _ _ L3) in X. pose proof (behind _ _ _ _ _ P4 X) as B2.
  rewrite (same_height _ _ _ _ L1) in X0. pose proof (behind _ _ _ _ _ P2 X0) as B3. clear P1 P2 P3 P4 X X0 O1 n L1 L2 L3.
  (* the two sides whose diagonals differ *)
  face H [1; 2; 6; 5]%nat O1. pose proof (quad_flat _ _ _ _ _ P) as F2. clear P O1 n.
  face H [3; 0; 4; 7]%nat O1. other O1 2%nat. pose proof (quad_flat _ _ _ _ _ P) as F3.
  destruct (quad_level _ _ _ _ _ P) as [L1 [L2 L3]]. destruct P as [_ [P1 [P2 [P3 P4]]]].
  rewrite (same_height _ _ _ _ L1) in X. pose proof (behind _ _ _ _ _ P2 X) as C2. clear P1 P2 P3 P4 X O1 n L1 L2 L3.
  (* the tetrahedron in the middle *)
  face H [0; 1; 5; 4]%nat O1. destruct (opposite_corner _ _ _ _ _ P) as [s [t [Hs [Ht E]]]]. clear P O1 n.
  pose proof (beyond p0 p2 p7 p1 p5 p4 s t E) as B5. clear E.
  assert (C1' : 0 < T p0 p2 p7 p1) by (replace (T p0 p2 p7 p1) with (- T p2 p1 p0 p7) by (clear; flat; ring); lra).
  assert (C2' : 0 < T p0 p2 p7 p4) by (replace (T p0 p2 p7 p4) with (- T p0 p4 p7 p2) by (clear; flat; ring); lra).
  assert (B5' : - T p0 p2 p7 p5 < 0) by (rewrite B5; pose proof (Rmult_lt_0_compat _ _ Hs C1'); pose proof (Rmult_lt_0_compat _ _ Ht C2'); lra).
  clear B5 C1 C2 C1' C2' s t Hs Ht H.
  rewrite (neg_tet p0 p1 p2 p5 _ B1) by (clear; (left + right); flat; ring). rewrite (neg_tet p0 p5 p7 p4 _ B2) by (clear; (left + right); flat; ring).
  rewrite (neg_tet p0 p5 p2 p7 _ B5') by (clear; (left + right); flat; ring). rewrite (neg_tet p7 p5 p2 p6 _ B3) by (clear; (left + right); flat; ring).
  rewrite (neg_tet p0 p2 p3 p7 _ B4) by (clear; (left + right); flat; ring). split; [|lra].
  match goal with |- ?l = ?r => replace r with (l - T p1 p2 p6 p5 / 6 - T p3 p0 p4 p7 / 6 - T p4 p5 p6 p7 / 6) end.
  - rewrite F1, F2, F3. field.
  - unfold volume. cbn [length sides map pick nth pyramid fan sum]. clear. flat. field.
Qed.

(** ** ComputeVolume *)

Lemma corner_ok vc pts i : (forall j p, nth_error pts j = Some p -> nth_error vc j = Some (Some p)) ->
  (i < length pts)%nat -> corner vc i = Ok (nth i pts origin).
Proof.
  intros H Hi. unfold corner. assert (E : nth_error pts i = Some (nth i pts origin)) by (apply nth_error_nth'; exact Hi).
  rewrite (rd_some _ _ _ (H i _ E)). reflexivity.
Qed.
Theorem volume_ok vc pts : (forall j p, nth_error pts j = Some p -> nth_error vc j = Some (Some p)) -> convex_cell pts ->
  exists v, ComputeVolume vc (length pts) = Ok v /\ 0 < v /\ forall o, v = volume o pts.
Proof.
  intros Hv Hc.
  assert (C : forall i, (i < length pts)%nat -> corner vc i = Ok (nth i pts origin)) by (intros i Hi; apply (corner_ok vc pts i Hv Hi)).
  assert (L : (length pts = 4 \/ length pts = 5 \/ length pts = 6 \/ length pts = 8)%nat).
  { destruct Hc as [Hc _]. destruct (length pts) as [|[|[|[|[|[|[|[|[|]]]]]]]]]; cbn in Hc; try tauto; exfalso; apply Hc; reflexivity. }
  destruct L as [L|[L|[L|L]]].
  - destruct pts as [|a [|b [|c [|d [|? ?]]]]]; try discriminate L. cbn [length] in C |- *.
    unfold ComputeVolume, add_tets, tet_tets, add_tet.
    rewrite (C 0%nat), (C 1%nat), (C 2%nat), (C 3%nat) by lia. cbn [bind nth].
    eexists. split; [reflexivity|]. rewrite Rplus_0_l. split; [apply (tet_cell _ _ _ _ Hc origin)|intro o; apply (tet_cell _ _ _ _ Hc o)].
  - destruct pts as [|a [|b [|c [|d [|e [|? ?]]]]]]; try discriminate L. cbn [length] in C |- *.
    unfold ComputeVolume, add_tets, pyramid_tets, add_tet.
    rewrite (C 0%nat), (C 1%nat), (C 2%nat), (C 3%nat), (C 4%nat) by lia. cbn [bind nth].
    eexists. split; [reflexivity|]. split; [apply (pyramid_cell _ _ _ _ _ Hc origin)|intro o; apply (pyramid_cell _ _ _ _ _ Hc o)].
  - destruct pts as [|a [|b [|c [|d [|e [|f [|? ?]]]]]]]; try discriminate L. cbn [length] in C |- *.
    unfold ComputeVolume, add_tets, wedge_tets, add_tet.
    rewrite (C 0%nat), (C 1%nat), (C 2%nat), (C 3%nat), (C 4%nat), (C 5%nat) by lia. cbn [bind nth].
    eexists. split; [reflexivity|]. split; [apply (wedge_cell _ _ _ _ _ _ Hc origin)|intro o; apply (wedge_cell _ _ _ _ _ _ Hc o)].
  - destruct pts as [|a [|b [|c [|d [|e [|f [|g [|h [|? ?]]]]]]]]]; try discriminate L. cbn [length] in C |- *.
    unfold ComputeVolume, add_tets, hex_tets, add_tet.
    rewrite (C 0%nat), (C 1%nat), (C 2%nat), (C 3%nat), (C 4%nat), (C 5%nat), (C 6%nat), (C 7%nat) by lia. cbn [bind nth].
    eexists. split; [reflexivity|]. split; [apply (hex_cell _ _ _ _ _ _ _ _ Hc origin)|intro o; apply (hex_cell _ _ _ _ _ _ _ _ Hc o)].
Qed.

(** ** Centres *)

Lemma height_sum n x pts c : mean pts c -> INR (length pts) * height n x c = sum (map (height n x) pts).
Proof.
  intros [M1 [M2 M3]].
  assert (E : sum (map (height n x) pts) = vx n * (sum (map vx pts) - INR (length pts) * vx x) + vy n * (sum (map vy pts) - INR (length pts) * vy x) + vz n * (sum (map vz pts) - INR (length pts) * vz x)).
  { clear. induction pts as [|p pts IH].
    - cbn [length map sum INR]. ring.
    - cbn [length map sum]. rewrite S_INR, IH. flat. ring. }
  rewrite E, <- M1, <- M2, <- M3. flat. ring.
Qed.
Lemma sum_negative l : (forall x, In x l -> x <= 0) -> (exists x, In x l /\ x < 0) -> sum l < 0.
Proof.
  intros H [x [Hx Hn]]. induction l as [|y l IH]; [destruct Hx|].
  assert (N : sum l <= 0).
  { assert (H' : forall x, In x l -> x <= 0) by (intros; apply H; right; assumption). clear - H'. induction l as [|z l IH]; [cbn; lra|].
    cbn. pose proof (H' z (or_introl eq_refl)). assert (sum l <= 0) by (apply IH; intros; apply H'; right; assumption). lra. }
  cbn. pose proof (H y (or_introl eq_refl)) as Hy. destruct Hx as [->|Hx]; [lra|].
  assert (sum l < 0) by (apply IH; [intros; apply H; right; assumption|exact Hx]). lra.
Qed.
Lemma on_side pts s n i : In s (sides (length pts)) -> polygon n (pick pts s) -> In i s ->
  height n (nth (hd 0%nat s) pts origin) (nth i pts origin) = 0.
Proof.
  intros Hs P Hi.
  assert (S0 : forall a, height n a a = 0) by (intro a; flat; ring).
  assert (Hl : (length s = 3 \/ length s = 4)%nat).
  { destruct (length pts) as [|[|[|[|[|[|[|[|[|]]]]]]]]]; cbn in Hs; repeat (destruct Hs as [<-|Hs]; [cbn; tauto|]); destruct Hs. }
  destruct Hl as [Hl|Hl].
  - destruct s as [|a [|b [|c [|? ?]]]]; try discriminate Hl. cbn [pick map] in P. destruct (tri_level _ _ _ _ P) as [L1 L2].
    cbn [hd]. destruct Hi as [<-|[<-|[<-|[]]]]; auto.
  - destruct s as [|a [|b [|c [|d [|? ?]]]]]; try discriminate Hl. cbn [pick map] in P. destruct (quad_level _ _ _ _ _ P) as [L1 [L2 L3]].
    cbn [hd]. destruct Hi as [<-|[<-|[<-|[<-|[]]]]]; auto.
Qed.
Lemma not_all (pts : list v3) s : In s (sides (length pts)) -> exists i, (i < length pts)%nat /\ ~ In i s.
Proof.
  intro Hs. destruct (length pts) as [|[|[|[|[|[|[|[|[|]]]]]]]]]; cbn in Hs; try (destruct Hs; fail).
  - destruct Hs as [<-|[<-|[<-|[<-|[]]]]]; [exists 2%nat|exists 0%nat|exists 1%nat|exists 3%nat]; split; cbn; lia.
  - destruct Hs as [<-|[<-|[<-|[<-|[<-|[]]]]]]; [exists 2%nat|exists 0%nat|exists 1%nat|exists 1%nat|exists 4%nat]; split; cbn; lia.
  - destruct Hs as [<-|[<-|[<-|[<-|[<-|[]]]]]]; [exists 2%nat|exists 0%nat|exists 1%nat|exists 3%nat|exists 0%nat]; split; cbn; lia.
  - destruct Hs as [<-|[<-|[<-|[<-|[<-|[<-|[]]]]]]]; [exists 2%nat|exists 0%nat|exists 1%nat|exists 1%nat|exists 4%nat|exists 0%nat]; split; cbn; lia.
Qed.
Theorem mean_inside pts c : mean pts c -> inside pts c.
Proof.
  intros M s n Hs P H. set (x := nth (hd 0%nat s) pts origin) in *.
  assert (N : sum (map (height n x) pts) < 0).
  { apply sum_negative.
    - intros y Hy. apply in_map_iff in Hy. destruct Hy as [p [<- Hp]]. destruct (In_nth pts p origin Hp) as [i [Hi <-]].
      destruct (in_dec Nat.eq_dec i s) as [I|I]; [unfold x; rewrite (on_side pts s n i Hs P I); lra|].
      pose proof (H i Hi I). lra.
    - destruct (not_all pts s Hs) as [i [Hi I]]. exists (height n x (nth i pts origin)). split; [|apply (H i Hi I)].
      apply in_map_iff. exists (nth i pts origin). split; [reflexivity|apply nth_In; exact Hi]. }
  rewrite <- (height_sum n x pts c M) in N. pose proof (pos_INR (length pts)) as Q.
  destruct (Rlt_dec (height n x c) 0) as [|G]; [assumption|]. exfalso. pose proof (Rmult_le_pos _ _ Q (Rnot_lt_le _ _ G)). lra.
Qed.

(** ** The loop over the cells *)

Section Cells.
Variable coords : list v3.
Variable cv : list (list Z).
Variable cnv : list nat.
Variable nat_ids : list Z.

Lemma gather_ok icell row vc pts : nth_error cv icell = Some row -> (length pts <= length row)%nat -> (length pts <= length vc)%nat ->
  (forall i, (i < length pts)%nat -> exists id, nth_error row i = Some id /\ at_ coords id (nth i pts origin)) ->
  exists vc' xyz, gather_vertices coords cv icell (length pts) vc = Ok (vc', xyz) /\ length vc' = length vc /\
    (forall j p, nth_error pts j = Some p -> nth_error vc' j = Some (Some p)) /\
    vx xyz = sum (map vx pts) /\ vy xyz = sum (map vy pts) /\ vz xyz = sum (map vz pts).
Proof.
  intros Hr Hl Hvc Hp. unfold gather_vertices.
  match goal with |- context[for_ _ ?b _] => set (body := b) end.
  assert (SS : forall (f : v3 -> R) k, (k < length pts)%nat -> sum (map f (firstn (S k) pts)) = sum (map f (firstn k pts)) + f (nth k pts origin)).
  { intros f k Hk. clear - Hk. revert pts Hk. induction k as [|k IH]; intros [|p pts] Hk; cbn [length] in Hk; try lia.
    - cbn. ring.
    - cbn [firstn map sum nth] in *. rewrite (IH pts) by lia. ring. }
  destruct (for_inv (fun k (st : list (option v3) * v3) => length (fst st) = length vc /\
      (forall j, (j < k)%nat -> nth_error (fst st) j = Some (Some (nth j pts origin))) /\
      vx (snd st) = sum (map vx (firstn k pts)) /\ vy (snd st) = sum (map vy (firstn k pts)) /\ vz (snd st) = sum (map vz (firstn k pts)))
    body (length pts) (vc, V3 0 0 0)) as [[vc' xyz] [E [I1 [I2 I3]]]].
  - cbn. repeat split; try reflexivity. intros j Hj. lia.
  - intros k [vc1 xyz1] Hk [I1 [I2 [I3 [I4 I5]]]]. cbn [fst snd] in *.
    destruct (Hp k Hk) as [id [Hid Ha]].
    exists (upd vc1 k (Some (nth k pts origin)), V3 (vx xyz1 + vx (nth k pts origin)) (vy xyz1 + vy (nth k pts origin)) (vz xyz1 + vz (nth k pts origin))).
    unfold body. cbv beta iota. rewrite (rd_some _ _ _ Hr). cbn [bind]. rewrite (rd_some _ _ _ Hid). cbn [bind]. rewrite (rdz_at _ _ _ Ha). cbn [bind].
    rewrite wr_ok by lia. cbn [bind]. split; [reflexivity|]. cbn [fst snd vx vy vz].
    split; [rewrite length_upd; exact I1|]. split.
    + intros j Hj. destruct (Nat.eq_dec j k) as [->|N]; [apply nth_upd_same; lia|]. rewrite nth_upd_other by lia. apply I2. lia.
    + rewrite !SS by exact Hk. rewrite I3, I4, I5. repeat split; reflexivity.
  - exists vc', xyz. split; [exact E|]. cbn [fst snd] in *. split; [exact I1|]. rewrite firstn_all in I3. split; [|exact I3].
    intros j p Hj. rewrite I2 by (apply nth_lt in Hj; exact Hj). rewrite (nth_error_nth _ _ _ Hj). reflexivity.
Qed.
Lemma divided_mean xyz pts : (0 < length pts)%nat -> vx xyz = sum (map vx pts) -> vy xyz = sum (map vy pts) -> vz xyz = sum (map vz pts) ->
  exists c, divided xyz (length pts) = Some c /\ mean pts c.
Proof.
  intros Hn E1 E2 E3. assert (N : INR (length pts) <> 0) by (apply not_0_INR; lia).
  unfold divided, fdiv. destruct (Req_EM_T (INR (length pts)) 0) as [Z|_]; [contradiction|]. cbn [fbind].
  eexists. split; [reflexivity|]. unfold mean. cbn [vx vy vz]. rewrite E1, E2, E3. repeat split; field; exact N.
Qed.

Theorem cells_ok maxv nl ng : length cnv = ng -> length cv = ng -> length nat_ids = ng ->
  (forall i, (i < ng)%nat -> exists row pts, nth_error cv i = Some row /\ nth_error cnv i = Some (length pts) /\
     (length pts <= maxv)%nat /\ (length pts <= length row)%nat /\
     (forall j, (j < length pts)%nat -> exists id, nth_error row j = Some id /\ at_ coords id (nth j pts origin)) /\ convex_cell pts) ->
  exists cells, setup_cells coords cv cnv nat_ids maxv nl ng = Ok cells /\ length cells = ng /\
    forall i row pts id, nth_error cv i = Some row -> nth_error cnv i = Some (length pts) -> nth_error nat_ids i = Some id ->
      (forall j, (j < length pts)%nat -> exists id, nth_error row j = Some id /\ at_ coords id (nth j pts origin)) ->
      exists c v, nth_error cells i = Some (mkUcell id (Some c) (i <? nl)%nat v) /\ mean pts c /\ inside pts c /\
        0 < v /\ forall o, v = volume o pts.
Proof.
  intros L1 L2 L3 H. unfold setup_cells.
  assert (UQ : forall row p q, length p = length q ->
    (forall j, (j < length p)%nat -> exists id, nth_error row j = Some id /\ at_ coords id (nth j p origin)) ->
    (forall j, (j < length q)%nat -> exists id, nth_error row j = Some id /\ at_ coords id (nth j q origin)) -> p = q).
  { intros row p q Hl Hp Hq. apply (nth_ext p q origin origin Hl). intros j Hj. destruct (Hp j Hj) as [i1 [X1 [_ Y1]]].
    destruct (Hq j ltac:(lia)) as [i2 [X2 [_ Y2]]]. congruence. }
  destruct (for_inv (fun k (st : list (option v3) * list ucell) => length (fst st) = maxv /\ length (snd st) = ng /\
      forall i, (i < k)%nat -> forall row pts id, nth_error cv i = Some row -> nth_error cnv i = Some (length pts) -> nth_error nat_ids i = Some id ->
      (forall j, (j < length pts)%nat -> exists id, nth_error row j = Some id /\ at_ coords id (nth j pts origin)) ->
      exists c v, nth_error (snd st) i = Some (mkUcell id (Some c) (i <? nl)%nat v) /\ mean pts c /\ inside pts c /\ 0 < v /\ forall o, v = volume o pts)
    (setup_cell coords cv cnv nat_ids nl) ng (repeat None maxv, repeat (mkUcell (-1) (Some (V3 0 0 0)) false 0) ng)) as [[vc cells] [E [I1 [I2 I3]]]].
  - cbn [fst snd]. rewrite !repeat_length. repeat split; try reflexivity. intros i Hi. lia.
  - intros k [vc cells] Hk [I1 [I2 I3]]. cbn [fst snd] in *.
    destruct (H k Hk) as [row [pts [R1 [R2 [R3 [R4 [R5 R6]]]]]]].
    destruct (nth_error nat_ids k) as [id|] eqn:Eid; [|apply nth_error_None in Eid; lia].
    destruct (gather_ok k row vc pts R1 R4 ltac:(lia) R5) as [vc' [xyz [G1 [G2 [G3 [G4 [G5 G6]]]]]]].
    destruct (volume_ok vc' pts G3 R6) as [v [V1 [V2 V3]]].
    assert (Pn : (0 < length pts)%nat). { destruct R6 as [R6 _]. destruct pts; [exfalso; apply R6; reflexivity|cbn; lia]. }
    destruct (divided_mean xyz pts Pn G4 G5 G6) as [c [D1 D2]].
    exists (vc', upd cells k (mkUcell id (Some c) (k <? nl)%nat v)). unfold setup_cell.
    rewrite (rd_some _ _ _ Eid). cbn [bind]. rewrite (rd_some _ _ _ R2). cbn [bind]. rewrite G1. cbn [bind]. rewrite V1. cbn [bind]. rewrite D1.
    rewrite wr_ok by lia. cbn [bind]. split; [reflexivity|]. cbn [fst snd]. split; [lia|]. split; [rewrite length_upd; exact I2|].
    intros i Hi row' pts' id' X1 X2 X3 X4. destruct (Nat.eq_dec i k) as [->|N].
    + assert (row' = row) by congruence. subst row'. assert (id' = id) by congruence. subst id'.
      assert (Q : pts' = pts) by (apply (UQ row); [congruence|exact X4|exact R5]). subst pts'.
      exists c, v. split; [apply nth_upd_same; lia|]. split; [exact D2|]. split; [apply mean_inside; exact D2|]. split; assumption.
    + destruct (I3 i ltac:(lia) row' pts' id' X1 X2 X3 X4) as [c' [v' [Y1 Y2]]]. exists c', v'. split; [|exact Y2].
      rewrite nth_upd_other by lia. exact Y1.
  - rewrite E. cbn [bind snd] in *. exists cells. split; [reflexivity|]. split; [exact I2|].
    intros i row pts id X1. apply I3; [|exact X1]. apply nth_lt in X1. lia.
Qed.
End Cells.
