From Coq Require Import Reals ZArith List Bool Arith Lia Lra.
From Coquelicot Require Import Coquelicot.
From Verif Require Import Prelude Arrays Fvtpf SpecFvtpf FvtpfProofs FvtpfDerivProofs FvtpfSumProofs FvtpfTotalProofs FvtpfAssemblyProofs.
Import ListNotations.
Local Open Scope R_scope.

Lemma loop_ext : forall {St} (b1 b2 : nat -> St -> outcome St) m z s,
  (forall i s, (z <= i < z + m)%nat -> b1 i s = b2 i s) -> loop m z b1 s = loop m z b2 s.
Proof.
  intros St b1 b2 m; induction m as [|m IH]; intros z s H; [reflexivity|]. cbn [loop]. rewrite H by lia.
  destruct (b2 z s); cbn [bind]; try reflexivity. apply IH. intros i s' Hi. apply H. lia.
Qed.
Lemma for_ext : forall {St} (b1 b2 : nat -> St -> outcome St) m s,
  (forall i s, (i < m)%nat -> b1 i s = b2 i s) -> for_ m b1 s = for_ m b2 s.
Proof. intros. apply loop_ext. intros. apply H. lia. Qed.

(** ** Face permeability *)
Lemma face_permeability_mean_proof : forall g f ku kd,
  (0 <= f_up f)%Z -> (0 <= f_dn f)%Z -> 0 < f_dist_up f -> 0 < f_dist_dn f -> nonzero3 (f_unit f) ->
  diagonal_at g (Z.to_nat (f_up f)) ku -> diagonal_at g (Z.to_nat (f_dn f)) kd -> positive3 ku -> positive3 kd ->
  exists v, ComputeFacePermeability g f = Ok (Some v) /\ 0 < v
    /\ v * (f_dist_up f / directional (f_unit f) ku + f_dist_dn f / directional (f_unit f) kd) = 1
    /\ Rmin (directional (f_unit f) ku) (directional (f_unit f) kd) <= v * (f_dist_up f + f_dist_dn f)
       <= Rmax (directional (f_unit f) ku) (directional (f_unit f) kd)
    /\ (directional (f_unit f) ku = directional (f_unit f) kd -> v * (f_dist_up f + f_dist_dn f) = directional (f_unit f) ku).
Proof.
  intros g f ku kd U0 D0 Du Dd U Ku Kd Pu Pd. unfold ComputeFacePermeability, ExtractUpAndDown.
  destruct (Z.ltb_spec (f_dn f) 0); [lia|]. rewrite andb_false_r.
  rewrite (proj2 (Z.leb_le 0 (f_up f)) U0), (proj2 (Z.leb_le 0 (f_dn f)) D0).
  rewrite (diagonal_ok g (f_up f) ku), (diagonal_ok g (f_dn f) kd) by assumption. cbn [bind fst snd].
  destruct (face_value_mean_proof (f_unit f) (f_dist_up f) (f_dist_dn f) ku kd Pu Pd U Du Dd) as [v [E [Pv [_ [M S]]]]].
  exists v. rewrite E. split; [reflexivity|]. split; [exact Pv|]. split; [|split; assumption].
  rewrite face_value_ok in E by assumption. injection E as <-.
  pose proof (directional_pos _ _ Pu U) as Qu. pose proof (directional_pos _ _ Pd U) as Qd.
  set (a := directional (f_unit f) ku) in *. set (b := directional (f_unit f) kd) in *. clearbody a b.
  assert (0 < f_dist_up f * b) by (apply Rmult_lt_0_compat; assumption). assert (0 < f_dist_dn f * a) by (apply Rmult_lt_0_compat; assumption).
  field. repeat split; lra.
Qed.

(** ** Flow direction *)
Section Routine.
Variables (g : grid) (n nb : nat) (cs : list cell) (bs : list bnd).
Hypothesis G : good_grid g n nb.
Hypothesis Lc : length cs = n.
Hypothesis Gc : forall c, In c cs -> good_cell c.

Definition drop (f : face) (up dn : cell) : R :=
  potential_drop (c_P up) (c_P dn) (face_density (f_dist_up f) (f_dist_dn f) (c_S up) (c_S dn) (c_rho up) (c_rho dn))
    (dot (gravity g) (f_unit f) * (f_dist_up f + f_dist_dn f)).

Lemma routine_direction : forall j f up dn Res, nth_error (faces g) j = Some f -> f_internal f = true ->
  nth_error cs (Z.to_nat (f_up f)) = Some up -> nth_error cs (Z.to_nat (f_dn f)) = Some dn ->
  (threshold < c_Kr up \/ threshold < c_Kr dn) ->
  exists v, RichardsResidual g cs j Res = Ok (Some v)
    /\ (drop f up dn = 0 -> v = 0)
    /\ (0 < drop f up dn -> 0 <= v /\ (0 < c_Kr up -> 0 < v))
    /\ (drop f up dn < 0 -> v <= 0 /\ (0 < c_Kr dn -> v < 0)).
Proof.
  intros j f up dn Res F I Eu Ed K. pose proof (nth_error_In _ _ F) as Fin. pose proof (proj1 (proj2 (proj2 G)) f Fin) as GF.
  destruct (face_permeability_ok g n nb f G GF) as [Dq [EDq PDq]].
  destruct GF as [Du [Dd [A [_ [Rd_ Ri]]]]]. rewrite I in Ri. destruct Ri as [Ru _].
  destruct (Gc up (nth_error_In _ _ Eu)) as [Vu [Pu Ku]]. destruct (Gc dn (nth_error_In _ _ Ed)) as [Vd [Pd Kd]].
  destruct (flow_direction_proof g f Dq up dn Res Du Dd A PDq Vu Vd Pu Pd Ku Kd K) as [v [E H]].
  exists v. split; [|exact H]. rewrite <- E.
  unfold RichardsResidual. rewrite (rd_some _ _ _ F). cbn [bind].
  change (CalculateDistances g f) with (fst (CalculateDistances g f), snd (CalculateDistances g f)) at 1. cbv iota.
  rewrite EDq. cbn [bind]. rewrite (at_ok cs (f_up f) up) by (try assumption; apply Ru). cbn [bind].
  rewrite (at_ok cs (f_dn f) dn) by (try assumption; apply Rd_). reflexivity.
Qed.

(** ** Seepage *)
Lemma routine_seepage : forall j f b dn, nth_error (faces g) j = Some f -> f_internal f = false -> f_bc f = Seepage ->
  nth_error bs (Z.to_nat (- f_up f - 1)) = Some b -> good_bnd b -> nth_error cs (Z.to_nat (f_dn f)) = Some dn -> b_P b <= Pref g ->
  exists v, RichardsSeepageBCResidual g cs bs j (Some 0) = Ok (Some v) /\ v <= 0.
Proof.
  intros j f b dn F I Bc Eb [Vb [Pb Kb]] Ed HP. pose proof (nth_error_In _ _ F) as Fin. pose proof (proj1 (proj2 (proj2 G)) f Fin) as GF.
  destruct (face_permeability_ok g n nb f G GF) as [Dq [EDq PDq]].
  destruct GF as [Du [Dd [A [_ [Rd_ Ri]]]]]. rewrite I, Bc in Ri. destruct Ri as [_ Rb].
  destruct (Gc dn (nth_error_In _ _ Ed)) as [Vd [Pd Kd]].
  unfold RichardsSeepageBCResidual. rewrite (rd_some _ _ _ F). cbn [bind].
  change (CalculateDistances g f) with (fst (CalculateDistances g f), snd (CalculateDistances g f)) at 1. cbv iota.
  rewrite EDq. cbn [bind]. rewrite (at_ok bs _ b) by (try assumption; apply Rb). cbn [bind].
  rewrite (at_ok cs (f_dn f) dn) by (try assumption; apply Rd_). cbn [bind].
  destruct (gt (b_Kr b) eps || gt (c_Kr dn) eps) eqn:E.
  - destruct (seepage_no_inflow_proof g f Dq b dn (Some 0) Du Dd A PDq Vb Vd Pb Pd Kb Kd (proj1 (wet_true _ _) E) HP) as [v [Ev [Hv _]]].
    exists v. rewrite Ev. auto.
  - unfold seepage_flux. rewrite E. exists 0. split; [reflexivity|lra].
Qed.

(** ** Equilibrium *)
Lemma equilibrium_proof : forall prev junk,
  wet g cs -> length prev = n -> length bs = nb ->
  (forall f, In f (faces g) -> f_local f = true -> f_internal f = false -> f_bc f = Neumann) ->
  (forall f up dn, In f (faces g) -> f_local f = true -> f_internal f = true ->
     nth_error cs (Z.to_nat (f_up f)) = Some up -> nth_error cs (Z.to_nat (f_dn f)) = Some dn -> drop f up dn = 0) ->
  (forall i r c, nth_error (rocks g) i = Some r -> nth_error cs i = Some c ->
     k_src r = 0 /\ nth i prev 0 = c_rho c * k_por r * c_S c * k_vol r / dtime g) ->
  SNESFunction g cs bs prev junk n = Ok (map Some (repeat 0 n)).
Proof.
  intros prev junk W Lp Lb HN HD HS.
  set (bs' := repeat (mkBnd 0 1 1 0 0) nb).
  assert (Eb : forall r, SNESFunction g cs bs' prev junk n = Ok r -> SNESFunction g cs bs prev junk n = Ok r).
  { intros r H. unfold SNESFunction in *. destruct (for_ (length (faces g)) (internal_face g cs junk) (repeat (Some 0) n)) as [r1| |]; try discriminate H. cbn [bind] in *.
    assert (X : for_ (length (faces g)) (boundary_face g cs bs') r1 = for_ (length (faces g)) (boundary_face g cs bs) r1).
    { apply for_ext. intros z s _.
      { unfold boundary_face. destruct (rd (faces g) z) as [f| |] eqn:F; cbn [bind]; try reflexivity. apply rd_inv in F.
        destruct (f_local f) eqn:Lo; cbn [negb]; [|reflexivity]. destruct (f_internal f) eqn:I; [reflexivity|].
        rewrite (HN f (nth_error_In _ _ F) Lo I). reflexivity. } }
    rewrite <- X. exact H. }
  apply Eb.
  destruct (residual_defined_proof g n nb cs bs' G Lc Gc) with (prev := prev) (junk := junk) as [vs [E Lv]]; try assumption.
  { apply repeat_length. }
  { intros b Hb. apply repeat_spec in Hb. subst b. unfold good_bnd; simpl; lra. }
  rewrite E. f_equal. unfold lift. f_equal.
  apply nth_error_ext. intro i. destruct (lt_dec i n) as [Hi|Hi].
  2:{ rewrite (proj2 (nth_error_None vs i)) by lia. symmetry. apply nth_error_None. rewrite repeat_length. lia. }
  rewrite (nth_error_nth' vs 0) by lia. rewrite (nth_error_nth' (repeat 0 n) 0) by (rewrite repeat_length; lia). f_equal.
  rewrite nth_repeat.
  assert (Ni : nth_error (lift vs) i = Some (Some (nth i vs 0))) by (unfold lift; rewrite nth_error_map, (nth_error_nth' vs 0) by lia; reflexivity).
  destruct (cell_residual_proof g cs bs' prev junk n _ i (nth i vs 0) E Ni) as [Ev [Hq [_ Ha]]]. cbv zeta in *.
  rewrite Ev. unfold cell_balance.
  rewrite (total_ext _ (fun _ => 0)).
  2:{ intros j Hj. destruct (leaves g j i || enters g j i) eqn:T.
      - specialize (Hq j Hj T). unfold interior_result in *.
        destruct (nth_error (faces g) j) as [f|] eqn:F; [|apply nth_error_None in F; lia].
        unfold leaves, enters in T. rewrite F in T.
        assert (Lo : f_local f = true) by (destruct (f_local f); [reflexivity|discriminate T]).
        assert (I : f_internal f = true) by (destruct (f_internal f); [reflexivity|rewrite andb_false_r in T; discriminate T]).
        pose proof (nth_error_In _ _ F) as Fin. destruct (W f Fin Lo I) as [up [dn [Eu [Ed K]]]].
        destruct (routine_direction j f up dn (junk j) F I Eu Ed K) as [v [Er [Z0 _]]].
        rewrite Er. simpl. rewrite (Z0 (HD f up dn Fin Lo I Eu Ed)). ring.
      - apply orb_false_iff in T. destruct T as [-> ->]. simpl. ring. }
  rewrite (total_ext (fun j => coeff (bounds g j i) * _) (fun _ => 0)).
  2:{ intros j Hj. unfold bounds. destruct (nth_error (faces g) j) as [f|] eqn:F; [|simpl; ring].
      destruct (f_local f) eqn:Lo; [|simpl; ring]. destruct (f_internal f) eqn:I; [simpl; ring|].
      unfold open_face. rewrite (HN f (nth_error_In _ _ F) Lo I). simpl. ring. }
  rewrite !total_zero. destruct (local_cell g i) eqn:Li; [|ring].
  unfold local_cell in Li. destruct (nth_error (rocks g) i) as [r|] eqn:R_; [|discriminate Li].
  destruct (nth_error cs i) as [c|] eqn:Ci; [|apply nth_error_None in Ci; lia].
  destruct (HS i r c R_ Ci) as [S0 Pv]. unfold acc_of, src_of. rewrite Ci, R_, S0, Pv. unfold Accumulation. rewrite fdiv_ok by apply G. simpl. ring.
Qed.
End Routine.

(** ** Uninitialised variables *)
Lemma flux_ignores_res : forall dg uw Dq area up dn Res Res',
  threshold < c_Kr up \/ threshold < c_Kr dn -> richards_flux dg uw Dq area up dn Res = richards_flux dg uw Dq area up dn Res'.
Proof. intros dg uw Dq area up dn Res Res' K. unfold richards_flux. rewrite (proj2 (wet_true _ _) K). reflexivity. Qed.
Lemma jac_ignores_res : forall dg uw Dq area up dn J J',
  threshold < c_Kr up \/ threshold < c_Kr dn -> richards_jacobian dg uw Dq area up dn J = richards_jacobian dg uw Dq area up dn J'.
Proof. intros dg uw Dq area up dn Res Res' K. unfold richards_jacobian. rewrite (proj2 (wet_true _ _) K). reflexivity. Qed.

Definition cells_known (g : grid) : Prop :=
  forall f, In f (faces g) -> f_local f = true -> f_internal f = true -> (0 <= f_up f)%Z /\ (0 <= f_dn f)%Z.

Lemma residual_ignores_junk : forall g cs bs prev junk junk' n, wet g cs -> cells_known g ->
  SNESFunction g cs bs prev junk n = SNESFunction g cs bs prev junk' n.
Proof.
  intros g cs bs prev junk junk' n W N. unfold SNESFunction.
  rewrite (for_ext (internal_face g cs junk) (internal_face g cs junk')); [reflexivity|].
  intros j s _. unfold internal_face. destruct (rd (faces g) j) as [f| |] eqn:F; cbn [bind]; try reflexivity. 
  destruct (f_local f) eqn:Lo; cbn [negb]; [|reflexivity]. destruct (f_internal f) eqn:I; cbn [negb]; [|reflexivity].
  assert (E : ignore_error (RichardsResidual g cs j (junk j)) (junk j) = ignore_error (RichardsResidual g cs j (junk' j)) (junk' j)); [|rewrite E; reflexivity].
  unfold RichardsResidual. rewrite F. cbn [bind]. apply rd_inv in F. pose proof (nth_error_In _ _ F) as Fin.
  destruct (W f Fin Lo I) as [up [dn [Eu [Ed K]]]]. destruct (N f Fin Lo I) as [U0 D0].
  destruct (CalculateDistances g f) as [dg uw]. unfold ComputeFacePermeability, ExtractUpAndDown. destruct (Z.ltb_spec (f_up f) 0); [lia|]. cbn [andb].
  assert (ND : forall z, diagonal g z <> Err).
  { intros z. unfold diagonal, at_, rd. 
    destruct (z * 9 + 0 * 3 + 0 <? 0)%Z; cbn [bind]; [discriminate|]. destruct (nth_error (K0 g) (Z.to_nat (z * 9 + 0 * 3 + 0))); cbn [bind]; [|discriminate].
    destruct (z * 9 + 1 * 3 + 1 <? 0)%Z; cbn [bind]; [discriminate|]. destruct (nth_error (K0 g) (Z.to_nat (z * 9 + 1 * 3 + 1))); cbn [bind]; [|discriminate].
    destruct (z * 9 + 2 * 3 + 2 <? 0)%Z; cbn [bind]; [discriminate|]. destruct (nth_error (K0 g) (Z.to_nat (z * 9 + 2 * 3 + 2))); cbn [bind]; discriminate. }
  destruct (diagonal g (if (0 <=? f_up f)%Z then f_up f else f_dn f)) as [ku| |] eqn:E1; cbn [bind]; [|exfalso; exact (ND _ E1)|reflexivity].
  destruct (diagonal g (if (0 <=? f_dn f)%Z then f_dn f else f_up f)) as [kd| |] eqn:E2; cbn [bind]; [|exfalso; exact (ND _ E2)|reflexivity].
  rewrite (at_ok cs (f_up f) up), (at_ok cs (f_dn f) dn) by assumption. cbn [bind ignore_error]. rewrite (flux_ignores_res _ _ _ _ up dn (junk j) (junk' j) K). reflexivity.
Qed.

(** ** Boundary faces *)
Lemma boundary_same : forall g cs bs bs' j f b Res, nth_error (faces g) j = Some f -> f_up f = (- Z.of_nat b - 1)%Z ->
  nth_error bs b = nth_error bs' b ->
  RichardsSeepageBCResidual g cs bs j Res = RichardsSeepageBCResidual g cs bs' j Res
  /\ RichardsSeepageBCJacobian g cs bs j Res = RichardsSeepageBCJacobian g cs bs' j Res
  /\ RichardsBCJacobian g cs bs j Res = RichardsBCJacobian g cs bs' j Res.
Proof.
  intros g cs bs bs' j f b Res F Hb E.
  assert (A : at_ bs (- f_up f - 1) = at_ bs' (- f_up f - 1)).
  { unfold at_, rd. replace (Z.to_nat (- f_up f - 1)) with b by lia. rewrite E. reflexivity. }
  unfold RichardsSeepageBCResidual, RichardsSeepageBCJacobian, RichardsBCJacobian. rewrite (rd_some _ _ _ F). cbn [bind].
  destruct (CalculateDistances g f) as [dg uw]. rewrite A. auto.
Qed.
Lemma dirichlet_shifted : forall g cs bs bs' j f b Res, nth_error (faces g) j = Some f -> f_up f = (- Z.of_nat b - 1)%Z ->
  nth_error bs (b + 2) = nth_error bs' (b + 2) -> RichardsBCResidual g cs bs j Res = RichardsBCResidual g cs bs' j Res.
Proof.
  intros g cs bs bs' j f b Res F Hb E.
  assert (A : at_ bs (- f_up f + 1) = at_ bs' (- f_up f + 1)).
  { unfold at_, rd. replace (Z.to_nat (- f_up f + 1)) with (b + 2)%nat by lia. rewrite E. reflexivity. }
  unfold RichardsBCResidual. rewrite (rd_some _ _ _ F). cbn [bind]. destruct (CalculateDistances g f) as [dg uw]. rewrite A. reflexivity.
Qed.

Lemma jacobian_ignores_junk : forall g cs bs junk junk' junkb, wet g cs -> cells_known g ->
  SNESJacobian g cs bs junk junkb = SNESJacobian g cs bs junk' junkb.
Proof.
  intros g cs bs junk junk' junkb W N. unfold SNESJacobian.
  rewrite (for_ext (jac_internal_face g cs junk) (jac_internal_face g cs junk')); [reflexivity|].
  intros j s _. unfold jac_internal_face. destruct (rd (faces g) j) as [f| |] eqn:F; cbn [bind]; try reflexivity. 
  destruct (f_local f) eqn:Lo; cbn [negb]; [|reflexivity]. destruct (f_internal f) eqn:I; cbn [negb]; [|reflexivity].
  assert (E : ignore_error (RichardsJacobian g cs j (junk j)) (junk j) = ignore_error (RichardsJacobian g cs j (junk' j)) (junk' j)); [|rewrite E; reflexivity].
  unfold RichardsJacobian. rewrite F. cbn [bind]. apply rd_inv in F. pose proof (nth_error_In _ _ F) as Fin.
  destruct (W f Fin Lo I) as [up [dn [Eu [Ed K]]]]. destruct (N f Fin Lo I) as [U0 D0].
  destruct (CalculateDistances g f) as [dg uw]. unfold ComputeFacePermeability, ExtractUpAndDown. destruct (Z.ltb_spec (f_up f) 0); [lia|]. cbn [andb].
  assert (ND : forall z, diagonal g z <> Err).
  { intros z. unfold diagonal, at_, rd. 
    destruct (z * 9 + 0 * 3 + 0 <? 0)%Z; cbn [bind]; [discriminate|]. destruct (nth_error (K0 g) (Z.to_nat (z * 9 + 0 * 3 + 0))); cbn [bind]; [|discriminate].
    destruct (z * 9 + 1 * 3 + 1 <? 0)%Z; cbn [bind]; [discriminate|]. destruct (nth_error (K0 g) (Z.to_nat (z * 9 + 1 * 3 + 1))); cbn [bind]; [|discriminate].
    destruct (z * 9 + 2 * 3 + 2 <? 0)%Z; cbn [bind]; [discriminate|]. destruct (nth_error (K0 g) (Z.to_nat (z * 9 + 2 * 3 + 2))); cbn [bind]; discriminate. }
  destruct (diagonal g (if (0 <=? f_up f)%Z then f_up f else f_dn f)) as [ku| |] eqn:E1; cbn [bind]; [|exfalso; exact (ND _ E1)|reflexivity].
  destruct (diagonal g (if (0 <=? f_dn f)%Z then f_dn f else f_up f)) as [kd| |] eqn:E2; cbn [bind]; [|exfalso; exact (ND _ E2)|reflexivity].
  rewrite (at_ok cs (f_up f) up), (at_ok cs (f_dn f) dn) by assumption. cbn [bind ignore_error]. rewrite (jac_ignores_res _ _ _ _ up dn (junk j) (junk' j) K). reflexivity.
Qed.
