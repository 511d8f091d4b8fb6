(** Water at rest around the vertex (1,0,0) of two unit cubes. *)
From Coq Require Import Reals List Bool Arith ZArith Lia Lra.
From Verif Require Import Prelude Arrays SpecFvtpf Geom SpecGeom GeomProofs Mpfao SpecMpfao MpfaoProofs Subcell SpecSubcell SubcellProofs SubcellStoreProofs SubcellMoreProofs SubcellExamples Transport UGrid Gravity SpecGravity GravityProofs GravityMoreProofs GravityLayers.
Import ListNotations.
Local Open Scope R_scope.

(** The cubes of [SubcellExamples] with a permeability that ties flow along x to the
    gradient along z. *)
Definition sz_K : m3 := M3 2 0 1 0 1 0 1 0 3.
Definition sz_f00 := mkSface true 0 0 true 0 (-1, 1/2, 0).
Definition sz_f02 := mkSface true 1 1 false 1 (-1/2, 3/2, 0).
Definition sz_f01 := mkSface false 1 2 false 0 (0, 0, 1/2).
Definition sz_f10 := mkSface false 0 0 true 0 (1, 0, 1/2).
Definition sz_f13 := mkSface true 2 3 false 2 (0, 1/2, 0).
Definition sz_f14 := mkSface false 2 4 false 3 (1/2, 0, 3/2).
Definition sz_v : vertex := mkVertex [0; 1]%nat [(sz_f00, sz_f02, sz_f01); (sz_f10, sz_f13, sz_f14)] 5 4 [0; 4; 8; 12; 16]%nat.
Definition sz_B : list R := [-1/2; -3/2; -1/2; 0; 0; 1/2].
Definition sz_X : list R := [1/4; 3/4; 1/4; 0; 0; -1/4].
Lemma sz_mesh : of_mesh sx_geo sz_K 1 sz_v sx_face.
Proof.
  intros a f0 f1 f2 cell Ha Hc. destruct a as [|[|a]]; simpl in Ha, Hc; [| |destruct a; discriminate].
  - injection Ha as <- <- <-. injection Hc as <-. destruct sx_setup0 as [s [E F]].
    assert (Hb : between (V3 (1/2) (1/2) (1/2)) (V3 1 0 0) (V3 1 (1/2) (1/2)) (V3 (1/2) (1/2) 0) (V3 (1/2) 0 (1/2))).
    { unfold between. vec. lra. }
    assert (M : made sx_geo 0 1 s (V3 (1/2) (1/2) (1/2)) (V3 1 0 0) 0 2 1 (V3 1 (1/2) (1/2)) (V3 (1/2) (1/2) 0) (V3 (1/2) 0 (1/2))).
    { apply made_setup; auto. }
    destruct (made_positive _ _ _ _ _ _ _ _ _ _ _ _ M Hb) as [HD _].
    assert (HT : s_T s = 1 / 8) by (revert HD; vec; lra).
    destruct (md_area _ _ _ _ _ _ _ _ _ _ _ _ M) as [a0 [a1 [a2 [Ea [A0 [A1 A2]]]]]].
    unfold subface_area in A0, A1, A2. cbn [rd nth_error sx_geo g_fa g_fverts bind length INR] in A0, A1, A2.
    rewrite fdiv_ok in A0, A1, A2 by lra. injection A0 as <-. injection A1 as <-. injection A2 as <-.
    do 6 eexists. split; [exact E|]. split; [exact F|]. split; [reflexivity|]. split; [reflexivity|].
    split; [reflexivity|]. split; [reflexivity|]. split; [reflexivity|]. split; [exact Hb|].
    intros k f ar n Hk Har Hn. rewrite Ea in Har. unfold row_G, EntryOfG. rewrite HT, (md_nu _ _ _ _ _ _ _ _ _ _ _ _ M), fdiv_ok by lra.
    cbn [fbind].
    destruct k as [|[|[|k]]]; simpl in Hk, Har; [| | |destruct k; discriminate];
      injection Hk as <-; injection Har as <-; injection Hn as <-; unfold sz_f00, sz_f02, sz_f01, sz_K; cbn [sf_g];
      vec; f_equal; f_equal; [f_equal| |f_equal| |f_equal|]; field.
  - injection Ha as <- <- <-. injection Hc as <-. destruct sx_setup1 as [s [E F]].
    assert (Hb : between (V3 (3/2) (1/2) (1/2)) (V3 1 0 0) (V3 1 (1/2) (1/2)) (V3 (3/2) 0 (1/2)) (V3 (3/2) (1/2) 0)).
    { unfold between. vec. lra. }
    assert (M : made sx_geo 1 1 s (V3 (3/2) (1/2) (1/2)) (V3 1 0 0) 0 3 4 (V3 1 (1/2) (1/2)) (V3 (3/2) 0 (1/2)) (V3 (3/2) (1/2) 0)).
    { apply made_setup; auto. }
    destruct (made_positive _ _ _ _ _ _ _ _ _ _ _ _ M Hb) as [HD _].
    assert (HT : s_T s = 1 / 8) by (revert HD; vec; lra).
    destruct (md_area _ _ _ _ _ _ _ _ _ _ _ _ M) as [a0 [a1 [a2 [Ea [A0 [A1 A2]]]]]].
    unfold subface_area in A0, A1, A2. cbn [rd nth_error sx_geo g_fa g_fverts bind length INR] in A0, A1, A2.
    rewrite fdiv_ok in A0, A1, A2 by lra. injection A0 as <-. injection A1 as <-. injection A2 as <-.
    do 6 eexists. split; [exact E|]. split; [exact F|]. split; [reflexivity|]. split; [reflexivity|].
    split; [reflexivity|]. split; [reflexivity|]. split; [reflexivity|]. split; [exact Hb|].
    intros k f ar n Hk Har Hn. rewrite Ea in Har. unfold row_G, EntryOfG. rewrite HT, (md_nu _ _ _ _ _ _ _ _ _ _ _ _ M), fdiv_ok by lra.
    cbn [fbind].
    destruct k as [|[|[|k]]]; simpl in Hk, Har; [| | |destruct k; discriminate];
      injection Hk as <-; injection Har as <-; injection Hn as <-; unfold sz_f10, sz_f13, sz_f14, sz_K; cbn [sf_g];
      vec; f_equal; f_equal; [f_equal| |f_equal| |f_equal|]; field.
Qed.
Lemma sz_all : forall f, In f (all_faces sz_v) -> f = sz_f00 \/ f = sz_f02 \/ f = sz_f01 \/ f = sz_f10 \/ f = sz_f13 \/ f = sz_f14.
Proof. intros f Hf. simpl in Hf. decompose [or] Hf; subst; tauto. Qed.
Lemma sz_complete : complete sx_geo sx_face sz_v sx_xf sx_n sx_a.
Proof.
  intros f Hf. apply sz_all in Hf.
  assert (H4 : forall q : list nat, length q = 4%nat -> sx_a (sf_unk f) = 1 / INR (length q)).
  { intros q ->. unfold sx_a. simpl. field. }
  decompose [or] Hf; subst f; (split; [reflexivity|]); (split; [reflexivity|]); do 2 eexists;
    (split; [reflexivity|]); (split; [reflexivity|]); (split; [discriminate|apply H4; reflexivity]).
Qed.
Lemma sz_well_numbered : well_numbered sz_v.
Proof.
  constructor; try reflexivity.
  - unfold count; simpl; lia.
  - simpl. repeat constructor; simpl; lia.
  - simpl. intros s [<-|[<-|[]]]; simpl; repeat constructor; simpl; lia.
  - intros f Hf Hi. apply sz_all in Hf. unfold inner, count. decompose [or] Hf; subst; simpl in *; try discriminate; split; lia.
  - intros f Hf Hi. apply sz_all in Hf. unfold inner, count. decompose [or] Hf; subst; simpl in *; try discriminate; lia.
  - intros j f Hj. unfold inner, count. simpl in Hj |- *.
    destruct j as [|[|[|[|j]]]]; simpl in Hj; try (injection Hj as <-; reflexivity). destruct j; discriminate.
  - intros [|]; simpl; repeat constructor; simpl; lia.
Qed.
Lemma sz_two_sided : two_sided sz_v.
Proof.
  intros f Hf Hi. apply sz_all in Hf. decompose [or] Hf; subst f; try discriminate.
  - exists sz_f10. simpl. auto 10.
  - exists sz_f00. simpl. auto 10.
Qed.
Lemma sz_candf : forall m, ComputeCandF (sizes_of DirichletBC sz_v) sz_v = Ok m ->
  cm 1 (fill_A (sizes_of DirichletBC sz_v) m) 0 0 = -2 /\
  forall j, (j < 6)%nat -> cm 1 (fill_B (sizes_of DirichletBC sz_v) m) 0 j = nth j sz_B 0.
Proof.
  intros m H. cbv -[Rplus Ropp Rminus Rmult Rdiv Rinv IZR] in H. injection H as <-.
  split.
  - cbv -[Rplus Ropp Rminus Rmult Rdiv Rinv IZR]. field.
  - intros j Hj. destruct j as [|[|[|[|[|[|j]]]]]]; [..|lia]; cbv -[Rplus Ropp Rminus Rmult Rdiv Rinv IZR]; field.
Qed.
Lemma sz_answer : lapack_answer DirichletBC sz_v sz_X.
Proof.
  intros m H. apply sz_candf in H. destruct H as [HA HB].
  change (nsys (sizes_of DirichletBC sz_v)) with 1%nat. change (ncol (sizes_of DirichletBC sz_v)) with 6%nat.
  split; [reflexivity|]. intros i j Hi Hj. assert (i = 0)%nat by lia. subst i.
  rewrite (HB j Hj). cbn [acc]. rewrite HA.
  destruct j as [|[|[|[|[|[|j]]]]]]; [..|lia]; unfold cm, sz_X; simpl; lra.
Qed.
Lemma sz_regular : regular DirichletBC sz_v.
Proof.
  intros m H. apply sz_candf in H. destruct H as [HA _].
  change (nsys (sizes_of DirichletBC sz_v)) with 1%nat. intros y Hy k Hk.
  assert (k = 0)%nat by lia. subst k. specialize (Hy 0%nat Hk). cbn [total] in Hy. unfold cm in HA. rewrite HA in Hy. lra.
Qed.

(** The mesh with its tables; only the sub-faces at the vertex are filled in. *)
Definition sz_m (K : m3) : gmesh := mkGmesh sx_geo [8; 8]%nat
  ([0; 2; 1] ++ repeat (-1) 21 ++ [0; 3; 4])%Z ([1; 1; 1] ++ repeat (-1) 21 ++ [1; 1; 1])%Z ([1/4; 1/4; 1/4] ++ repeat 0 21 ++ [1/4; 1/4; 1/4])
  [[]; [0; 0; 0; 0; 0]%nat] [true; true] [true; true; true; true; true] [K; K].
Lemma sz_uniform : forall K, uniform (sz_m K) K.
Proof. intros K. split; [reflexivity|]. intros [|[|i]] k H; simpl in H; try congruence. destruct i; discriminate. Qed.
Lemma sz_symmetric : symmetric sz_K.
Proof. repeat split. Qed.
Lemma sz_invertible : invertible sz_K.
Proof. exists (M3 (3/5) 0 (-1/5) 0 1 0 (-1/5) 0 (2/5)). unfold mat_mul, mat_id, sz_K. cbn [m0 m1 m2 m3_ m4 m5 m6 m7 m8]. f_equal; field. Qed.
Lemma step_le : step <= 1.
Proof. unfold step. rewrite <- Rinv_1. apply Rinv_le_contravar; [lra|]. apply pow_R1_Rle. lra. Qed.
Lemma sz_not_small : not_small sz_K.
Proof. intros x Hx. pose proof step_le. unfold entries_of, sz_K in Hx. cbn [m0 m1 m2 m3_ m4 m5 m6 m7 m8] in Hx. simpl in Hx. decompose [or] Hx; subst; lra. Qed.
Lemma sx_symmetric : symmetric sx_K.
Proof. repeat split. Qed.
Lemma sx_invertible : invertible sx_K.
Proof. exists (M3 (3/5) (-1/5) 0 (-1/5) (2/5) 0 0 0 1). unfold mat_mul, mat_id, sx_K. cbn [m0 m1 m2 m3_ m4 m5 m6 m7 m8]. f_equal; field. Qed.
Lemma sx_not_small : not_small sx_K.
Proof. intros x Hx. pose proof step_le. unfold entries_of, sx_K in Hx. cbn [m0 m1 m2 m3_ m4 m5 m6 m7 m8] in Hx. simpl in Hx. decompose [or] Hx; subst; lra. Qed.
Lemma sz_sides0 : sides sx_geo 0 (V3 (1/2) (1/2) (1/2)) (V3 (3/2) (1/2) (1/2)).
Proof. exists (0, 1)%Z. split; [reflexivity|]. cbn [fst snd]. split; [lia|]. split; left; (split; [lia|reflexivity]). Qed.
Lemma sz_sides2 : sides sx_geo 2 (V3 (1/2) (1/2) 0) (V3 (1/2) (1/2) (1/2)).
Proof. exists (-2, 0)%Z. split; [reflexivity|]. cbn [fst snd]. split; [lia|]. split; [right; (split; [lia|reflexivity])|left; split; [lia|reflexivity]]. Qed.
Lemma sz_unit0 : unit_between (V3 (1/2) (1/2) (1/2)) (V3 (3/2) (1/2) (1/2)) (V3 1 0 0).
Proof.
  split; [intros E; injection E; lra|].
  assert (L : length3 (vsub (V3 (3/2) (1/2) (1/2)) (V3 (1/2) (1/2) (1/2))) = 1).
  { unfold length3, dot, vsub. cbn [vx vy vz]. transitivity (sqrt 1); [apply f_equal; field|apply sqrt_1]. }
  rewrite L. unfold vsub, vscale. cbn [vx vy vz]. f_equal; field.
Qed.
Lemma sz_unit2 : unit_between (V3 (1/2) (1/2) 0) (V3 (1/2) (1/2) (1/2)) (V3 0 0 1).
Proof.
  split; [intros E; injection E; lra|].
  assert (L : length3 (vsub (V3 (1/2) (1/2) (1/2)) (V3 (1/2) (1/2) 0)) = 1/2).
  { unfold length3, dot, vsub. cbn [vx vy vz]. transitivity (sqrt (1/2 * (1/2))); [apply f_equal; field|apply sqrt_square; lra]. }
  rewrite L. unfold vsub, vscale. cbn [vx vy vz]. f_equal; field.
Qed.
Lemma sz_area0 : forall K, area_known (sz_m K) 1 0 (1/4).
Proof. intros K c E. injection E as <-. exists 0%nat. split; reflexivity. Qed.
Lemma sz_area2 : forall K, area_known (sz_m K) 1 2 (1/4).
Proof. intros K c E. injection E as <-. exists 1%nat. split; reflexivity. Qed.

(** Pressures of water at rest at the cell centres and the centres of the boundary faces. *)
Definition sz_P (rho gz : R) (c : nat) : R :=
  at_rest 0 rho gz (nth c [V3 (1/2) (1/2) (1/2); V3 (3/2) (1/2) (1/2); V3 (1/2) 0 (1/2); V3 (1/2) (1/2) 0; V3 (3/2) 0 (1/2); V3 (3/2) (1/2) 0] (V3 0 0 0)).

Lemma rest_example : exists l G, NonCornerVertex DirichletBC 2 sx_v (Some sx_X) = Ok l /\
  grav_dis (sz_m sx_K) DefaultG DirichletBC (V3 0 0 (-10)) 1 2 = Ok (Some (Some G)) /\ mult l (sz_P 3 (-10)) 4 + 3 * G = 0.
Proof.
  destruct (entries_ok DirichletBC 2 sx_v sx_X sx_well_numbered) as [l E]. exists l.
  destruct (rest_proof (sz_m sx_K) sx_K 1 sx_v sx_face sx_xf sx_n sx_a sx_mesh sx_complete (sz_uniform _) sx_symmetric sx_invertible 2 (sz_P 3 (-10)) sx_cc 0 3 (-10))
    with (b := DirichletBC) (X := sx_X) (l := l) (f := sx_f02) (row := 4%nat) (u := V3 0 0 1) (kappa := 1) (xu := V3 (1/2) (1/2) 0) (xd := V3 (1/2) (1/2) (1/2)) as [G [E1 E2]].
  - intros cell [<-|[<-|[]]]; split; reflexivity.
  - exact sx_well_numbered.
  - exact sx_regular.
  - exact sx_answer.
  - exact E.
  - exact sx_two_sided.
  - intros _ f Hf Hi. apply sx_all in Hf. destruct Hf as [->|[->|[->|[->|[->| ->]]]]]; try discriminate Hi; unfold sz_P; apply f_equal; reflexivity.
  - discriminate.
  - exact sx_not_small.
  - simpl. auto.
  - reflexivity.
  - exact sz_sides2.
  - exact sz_unit2.
  - exact (sz_area2 _).
  - discriminate.
  - unfold sx_n, sx_K. simpl nth. unfold mat_vec, vscale. cbn [m0 m1 m2 m3_ m4 m5 m6 m7 m8 vx vy vz]. f_equal; ring.
  - exists G. auto.
Qed.

Lemma tilted_example : exists l G, NonCornerVertex DirichletBC 2 sz_v (Some sz_X) = Ok l /\
  grav_dis (sz_m sz_K) DefaultG DirichletBC (V3 0 0 (-10)) 1 0 = Ok (Some (Some G)) /\ mult l (sz_P 3 (-10)) 0 + 3 * G <> 0.
Proof.
  destruct (entries_ok DirichletBC 2 sz_v sz_X sz_well_numbered) as [l E]. exists l.
  destruct (tilted_proof (sz_m sz_K) sz_K 1 sz_v sx_face sx_xf sx_n sx_a sz_mesh sz_complete (sz_uniform _) sz_symmetric sz_invertible sz_not_small)
    with (ncells := 2%nat) (P := sz_P 3 (-10)) (cc := sx_cc) (p0 := 0) (rho := 3) (gz := -10) (b := DirichletBC) (X := sz_X) (l := l) (f := sz_f00) (row := 0%nat)
      (xu := V3 (1/2) (1/2) (1/2)) (xd := V3 (3/2) (1/2) (1/2)) as [G [E1 E2]].
  - simpl. lra.
  - intros cell [<-|[<-|[]]]; split; reflexivity.
  - exact sz_well_numbered.
  - exact sz_regular.
  - exact sz_answer.
  - exact E.
  - exact sz_two_sided.
  - discriminate.
  - intros f Hf Hi. apply sz_all in Hf. destruct Hf as [->|[->|[->|[->|[->| ->]]]]]; try discriminate Hi; unfold sz_P; apply f_equal; reflexivity.
  - simpl. auto.
  - reflexivity.
  - exact sz_sides0.
  - exact sz_unit0.
  - reflexivity.
  - exact (sz_area0 _).
  - unfold sx_a. lra.
  - lra.
  - lra.
  - exists G. auto.
Qed.

(** A face at 45 degrees and a permeability with a negative entry. *)
Definition neg_K : m3 := M3 2 0 (-1) 0 1 0 (-1) 0 2.
Definition neg_u : v3 := V3 (/ sqrt 2) 0 (/ sqrt 2).
Definition neg_m : gmesh := mkGmesh
  (mkGeo [V3 0 0 0; V3 1 0 1] [] [V3 (1/2) 0 (1/2)] [neg_u] [4] [(0, 1)]%Z [] []) [8; 8]%nat [0%Z] [0%Z] [1] [] [] [] [neg_K; neg_K].
Theorem negative_proof : exists m K f n u xu xd,
  uniform m K /\ symmetric K /\ (forall x, x <> V3 0 0 0 -> 0 < dot x (mat_vec K x)) /\
  sides (q_geo m) f xu xd /\ unit_between xu xd u /\ nth_error (g_fn (q_geo m)) f = Some n /\ mat_vec K n = u /\ n = u /\ vz u <> 0 /\ area_known m 0 f 1 /\
  forall b gz, grav_dis m DefaultG b (V3 0 0 gz) 0 f = Ok (Some (Some (2 * (1 * Rabs gz * vz (mat_vec K n))))).
Proof.
  assert (S2 : sqrt 2 * sqrt 2 = 2) by (apply sqrt_sqrt; lra). assert (S0 : 0 < sqrt 2) by (apply sqrt_lt_R0; lra).
  assert (Hs : sides (q_geo neg_m) 0 (V3 0 0 0) (V3 1 0 1)).
  { exists (0, 1)%Z. split; [reflexivity|]. cbn [fst snd]. split; [lia|]. split; left; (split; [lia|reflexivity]). }
  assert (Hu : unit_between (V3 0 0 0) (V3 1 0 1) neg_u).
  { split; [intros E; injection E; lra|].
    assert (L : length3 (vsub (V3 1 0 1) (V3 0 0 0)) = sqrt 2) by (unfold length3, dot, vsub; cbn [vx vy vz]; apply f_equal; ring).
    rewrite L. unfold vsub, vscale, neg_u. cbn [vx vy vz]. f_equal; field; lra. }
  assert (HU : uniform neg_m neg_K).
  { split; [reflexivity|]. intros [|[|i]] k H; simpl in H; try congruence. destruct i; discriminate. }
  assert (HK : mat_vec neg_K neg_u = neg_u).
  { unfold mat_vec, neg_K, neg_u. cbn [m0 m1 m2 m3_ m4 m5 m6 m7 m8 vx vy vz]. f_equal; ring. }
  assert (Ha : area_known neg_m 0 0 1) by (intros c E; injection E as <-; exists 0%nat; split; reflexivity).
  exists neg_m, neg_K, 0%nat, neg_u, neg_u, (V3 0 0 0), (V3 1 0 1).
  split; [exact HU|]. split; [repeat split|]. split.
  { intros [x y z] Hx. unfold dot, mat_vec, neg_K. cbn [m0 m1 m2 m3_ m4 m5 m6 m7 m8 vx vy vz].
    replace (x * (2 * x + 0 * y + -1 * z) + y * (0 * x + 1 * y + 0 * z) + z * (-1 * x + 0 * y + 2 * z)) with ((x - z) * (x - z) + x * x + y * y + z * z) by ring.
    pose proof (Rle_0_sqr (x - z)) as A1. pose proof (Rle_0_sqr x) as A2. pose proof (Rle_0_sqr y) as A3. pose proof (Rle_0_sqr z) as A4. unfold Rsqr in *.
    destruct (Req_dec x 0) as [->|Nx]; [destruct (Req_dec y 0) as [->|Ny]; [destruct (Req_dec z 0) as [->|Nz]|]|].
    - contradiction Hx. reflexivity.
    - pose proof (Rsqr_pos_lt z Nz) as Q. unfold Rsqr in Q. lra.
    - pose proof (Rsqr_pos_lt y Ny) as Q. unfold Rsqr in Q. lra.
    - pose proof (Rsqr_pos_lt x Nx) as Q. unfold Rsqr in Q. lra. }
  split; [exact Hs|]. split; [exact Hu|]. split; [reflexivity|]. split; [exact HK|]. split; [reflexivity|].
  split; [unfold neg_u; cbn [vz]; apply Rinv_neq_0_compat; lra|]. split; [exact Ha|].
  intros b gz.
  assert (V : FaceValueMPFAO neg_m 0 = Ok (Some 2)).
  { rewrite (value_uniform neg_m 0 (V3 0 0 0) (V3 1 0 1) neg_u (V3 (1/2) 0 (1/2)) neg_u neg_K HU); auto; try reflexivity.
    - do 2 f_equal. pose proof step_le. pose proof step_pos. unfold cut, map2, neg_K. cbn [m0 m1 m2 m3_ m4 m5 m6 m7 m8].
      rewrite !(kept_small (-1)), !(kept_id 0), !(kept_id 1), !(kept_id 2) by lra.
      unfold dot, mat_vec, neg_u. cbn [m0 m1 m2 m3_ m4 m5 m6 m7 m8 vx vy vz].
      replace (/ sqrt 2 * (2 * / sqrt 2 + 0 * 0 + 0 * / sqrt 2) + 0 * (0 * / sqrt 2 + 1 * 0 + 0 * / sqrt 2) + / sqrt 2 * (0 * / sqrt 2 + 0 * 0 + 2 * / sqrt 2))
        with (4 * / (sqrt 2 * sqrt 2)) by (field; lra). rewrite S2. field.
    - repeat split.
    - exists (M3 (2/3) 0 (1/3) 0 1 0 (1/3) 0 (2/3)). unfold mat_mul, mat_id, neg_K. cbn [m0 m1 m2 m3_ m4 m5 m6 m7 m8]. f_equal; field. }
  rewrite (grav_default neg_m b (V3 0 0 gz) 0 0 (V3 0 0 0) (V3 1 0 1) neg_u neg_u 1 2 Hs Hu); auto; try reflexivity.
  - do 3 f_equal. rewrite GtimesZ_vertical, HK. ring.
  - intros _ c E. injection E as <-. cbn [fst snd]. lia.
Qed.

(** The whole computation on the two cubes. *)
Lemma sz_distinct : forall K, subs_distinct (sz_m K).
Proof.
  intros K. split.
  - intros [|[|iv]] subs s E Hs; simpl in E; [injection E as <-; contradiction|injection E as <-; simpl in Hs; lia|destruct iv; discriminate].
  - intros iv iv' fs fs' su su' j j' f s A1 A2 A3 A4 B1 B2 B3 B4.
    destruct iv as [|[|iv]]; simpl in A1; [injection A1 as <-; destruct j; discriminate| |destruct iv; discriminate].
    destruct iv' as [|[|iv']]; simpl in B1; [injection B1 as <-; destruct j'; discriminate|reflexivity|destruct iv'; discriminate].
Qed.
Lemma sz_tables : forall K, tables (sz_m K).
Proof.
  intros K. split; [reflexivity|]. split; [reflexivity|]. split.
  - intros [|[|iv]] fs su A B; simpl in A, B; [injection A as <-; injection B as <-; reflexivity|injection A as <-; injection B as <-; reflexivity|destruct iv; discriminate].
  - intros [|[|iv]] fs f A Hf; simpl in A; [injection A as <-; contradiction|injection A as <-; simpl in Hf; cbn; lia|destruct iv; discriminate].
Qed.
Ltac halfy := split; [intros E; injection E; lra|];
  match goal with |- vsub ?b ?a = _ =>
    let L := fresh in assert (L : length3 (vsub b a) = 1/2)
      by (unfold length3, dot, vsub; cbn [vx vy vz]; transitivity (sqrt (1/2 * (1/2))); [apply f_equal; field|apply sqrt_square; lra]);
    rewrite L; unfold vsub, vscale; cbn [vx vy vz]; f_equal; field end.
Lemma sz_dis : forall f, (f < 5)%nat -> exists u, grav_dis (sz_m sz_K) DefaultG DirichletBC (V3 0 0 (-10)) 1 f =
    Ok (Some (Some (1/4 * dot (nth f (g_fn sx_geo) u) (mat_vec sz_K u) * (10 * vz u)))) /\ u = nth f [V3 1 0 0; V3 0 1 0; V3 0 0 1; V3 0 1 0; V3 0 0 1] u.
Proof.
  intros f Hf. pose proof (cut_id sz_K sz_not_small) as CU.
  assert (GZ : forall u, GtimesZ (V3 0 0 (-10)) u = 10 * vz u).
  { intros u. rewrite GtimesZ_vertical. f_equal. unfold Rabs. destruct (Rcase_abs (-10)); lra. }
  assert (Go : forall xu xd u n xf, sides sx_geo f xu xd -> unit_between xu xd u -> nth_error (g_fc sx_geo) f = Some xf -> nth_error (g_fn sx_geo) f = Some n ->
    area_known (sz_m sz_K) 1 f (1/4) -> grav_dis (sz_m sz_K) DefaultG DirichletBC (V3 0 0 (-10)) 1 f = Ok (Some (Some (1/4 * dot n (mat_vec sz_K u) * (10 * vz u))))).
  { intros xu xd u n xf Hs Hu Hxf Hn Ha.
    pose proof (value_uniform (sz_m sz_K) f xu xd u xf n sz_K (sz_uniform _) sz_symmetric sz_invertible Hs Hu Hxf Hn) as V. rewrite CU in V.
    rewrite (grav_default (sz_m sz_K) DirichletBC (V3 0 0 (-10)) 1 f xu xd u n (1/4) _ Hs Hu ltac:(discriminate) Ha Hn V), GZ. reflexivity. }
  destruct f as [|[|[|[|[|f]]]]]; [..|lia].
  - exists (V3 1 0 0). split; [|reflexivity]. eapply Go; [exact sz_sides0|exact sz_unit0|reflexivity|reflexivity|exact (sz_area0 _)].
  - exists (V3 0 1 0). split; [|reflexivity]. eapply (Go (V3 (1/2) 0 (1/2)) (V3 (1/2) (1/2) (1/2))); [|halfy|reflexivity|reflexivity|].
    + exists (-1, 0)%Z. split; [reflexivity|]. cbn [fst snd]. split; [lia|]. split; [right; (split; [lia|reflexivity])|left; split; [lia|reflexivity]].
    + intros c E. injection E as <-. exists 2%nat. split; reflexivity.
  - exists (V3 0 0 1). split; [|reflexivity]. eapply Go; [exact sz_sides2|exact sz_unit2|reflexivity|reflexivity|exact (sz_area2 _)].
  - exists (V3 0 1 0). split; [|reflexivity]. eapply (Go (V3 (3/2) 0 (1/2)) (V3 (3/2) (1/2) (1/2))); [|halfy|reflexivity|reflexivity|].
    + exists (-3, 1)%Z. split; [reflexivity|]. cbn [fst snd]. split; [lia|]. split; [right; (split; [lia|reflexivity])|left; split; [lia|reflexivity]].
    + intros c E. injection E as <-. exists 25%nat. split; reflexivity.
  - exists (V3 0 0 1). split; [|reflexivity]. eapply (Go (V3 (3/2) (1/2) 0) (V3 (3/2) (1/2) (1/2))); [|halfy|reflexivity|reflexivity|].
    + exists (-4, 1)%Z. split; [reflexivity|]. cbn [fst snd]. split; [lia|]. split; [right; (split; [lia|reflexivity])|left; split; [lia|reflexivity]].
    + intros c E. injection E as <-. exists 26%nat. split; reflexivity.
Qed.
Lemma whole_example : exists vec, GravityDiscretization (sz_m sz_K) DefaultG DirichletBC (V3 0 0 (-10)) (repeat (Some 7) 20) = Ok vec /\
  nth_error vec 0 = Some (Some 0) /\ nth_error vec 1 = Some (Some 7) /\ nth_error vec 8 = Some (Some (30 / 4)).
Proof.
  assert (F5 : forall iv j f i, term_at (sz_m sz_K) DirichletBC iv j f i -> iv = 1%nat /\ (f < 5)%nat /\ i = (f * 4)%nat).
  { intros iv j f i [_ [_ [_ [fs [su [s [A1 [A2 [A3 [A4 ->]]]]]]]]]].
    destruct iv as [|[|iv]]; simpl in A1; [injection A1 as <-; destruct j; discriminate| |destruct iv; discriminate].
    injection A1 as <-. injection A2 as <-. split; [reflexivity|]. apply nth_error_In in A3. apply nth_error_In in A4. simpl in A3, A4. lia. }
  destruct (complete_proof (sz_m sz_K) DefaultG DirichletBC (V3 0 0 (-10)) (repeat (Some 7) 20) (sz_tables _)) as [vec E].
  { intros iv j f i T. destruct (F5 _ _ _ _ T) as [-> [H5 ->]]. split; [cbn; lia|]. destruct (sz_dis f H5) as [u [Eu _]]. eexists; exact Eu. }
  exists vec. split; [exact E|]. destruct (places_proof (sz_m sz_K) DefaultG DirichletBC (V3 0 0 (-10)) (sz_distinct _) _ _ E) as [_ [O1 O2]].
  assert (T0 : forall j f, nth_error [0; 1; 2; 3; 4]%nat j = Some f -> term_at (sz_m sz_K) DirichletBC 1 j f (f * 4)).
  { intros j f Hj. assert (f = j /\ (j < 5)%nat) as [-> H5].
    { destruct j as [|[|[|[|[|j]]]]]; simpl in Hj; try (injection Hj as <-; lia). destruct j; discriminate. }
    split; [reflexivity|]. split; [destruct j as [|[|[|[|[|j]]]]]; [reflexivity..|lia]|].
    split; [destruct j as [|[|[|[|[|j]]]]]; [eexists; split; [reflexivity|discriminate]..|lia]|].
    exists [0; 1; 2; 3; 4]%nat, [0; 0; 0; 0; 0]%nat, 0%nat. split; [reflexivity|]. split; [reflexivity|]. split; [exact Hj|].
    split; [destruct j as [|[|[|[|[|j]]]]]; [reflexivity..|lia]|lia]. }
  split; [|split].
  - destruct (O2 1%nat 0%nat 0%nat 0%nat (T0 0%nat 0%nat eq_refl)) as [x [Ex Hx]]. rewrite Hx.
    destruct (sz_dis 0 ltac:(lia)) as [u [Eu Hu]]. simpl in Hu. rewrite Ex in Eu. injection Eu as ->. rewrite Hu.
    do 2 f_equal. unfold dot, mat_vec, sz_K. cbn [nth sx_geo g_fn m0 m1 m2 m3_ m4 m5 m6 m7 m8 vx vy vz]. ring.
  - rewrite O1; [reflexivity|]. intros iv j f T. apply F5 in T. lia.
  - destruct (O2 1%nat 2%nat 2%nat 8%nat (T0 2%nat 2%nat eq_refl)) as [x [Ex Hx]]. rewrite Hx.
    destruct (sz_dis 2 ltac:(lia)) as [u [Eu Hu]]. simpl in Hu. rewrite Ex in Eu. injection Eu as ->. rewrite Hu.
    do 2 f_equal. unfold dot, mat_vec, sz_K. cbn [nth sx_geo g_fn m0 m1 m2 m3_ m4 m5 m6 m7 m8 vx vy vz]. field.
Qed.
