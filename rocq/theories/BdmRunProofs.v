(** Runs of the BDM assembly: repeated, with singular permeabilities, without boundary
    pressure; the solution for linear pressures. *)
From Coq Require Import Reals List ZArith Bool Arith Lia Lra Permutation.
From Verif Require Import Prelude Arrays SpecFvtpf FvtpfSumProofs MpfaoProofs Hdiv SpecHdiv HdivProofs FeMap SpecFeMap FeMapProofs.
From Verif Require Import Bdm SpecBdm SpecBdmMesh BdmProofs BdmLocalProofs BdmInverseProofs BdmGlobalProofs BdmMeshProofs BdmSolveProofs BdmExactProofs.
Import ListNotations.
Local Open Scope R_scope.

(** ** The permeability after a run *)
Lemma cell_tensors : forall b c s s', compute_cell b c s = Ok s' -> length (s_K s') = length (s_K s) /\
  forall k, nth k (s_K s') [] = if (c =? k)%nat && (0 <=? b_start b k)%Z then Inverse (p_dim (b_mesh b)) (b_lu b) (nth k (s_K s) []) else nth k (s_K s) [].
Proof.
  intros b c s s' E. unfold compute_cell in E. destruct (Z.ltb_spec (b_start b c) 0) as [N|N].
  - injection E as <-. split; [reflexivity|]. intro k. destruct (Nat.eqb_spec c k) as [<-|]; [|reflexivity]. destruct (Z.leb_spec 0 (b_start b c)); [lia|reflexivity].
  - unfold rd in E. destruct (nth_error (s_K s) c) as [K|] eqn:EK; [|discriminate E]. cbn [bind] in E.
    destruct (local_system _ _ _) as [l| |]; cbn [bind] in E; try discriminate E. destruct (assemble _ _ _ _ _) as [AF| |]; cbn [bind] in E; try discriminate E.
    injection E as <-. cbn [s_K]. split; [apply length_upd|]. intro k. destruct (Nat.eqb_spec c k) as [<-|Hk].
    + destruct (Z.leb_spec 0 (b_start b c)); [|lia]. cbn [andb]. assert (L : (c < length (s_K s))%nat) by (apply nth_error_Some; congruence).
      rewrite (nth_error_nth _ _ [] EK). apply nth_error_nth. apply nth_upd_same. exact L.
    + cbn [andb]. assert (X : nth_error (upd (s_K s) c (Inverse (p_dim (b_mesh b)) (b_lu b) K)) k = nth_error (s_K s) k) by (apply nth_upd_other; lia).
      destruct (nth_error (s_K s) k) eqn:Y.
      * rewrite (nth_error_nth _ _ [] X), (nth_error_nth _ _ [] Y). reflexivity.
      * apply nth_error_None in X, Y. rewrite !nth_overflow by assumption. reflexivity.
Qed.
Lemma run_tensors : forall b n k s s', loop n k (compute_cell b) s = Ok s' -> length (s_K s') = length (s_K s) /\
  forall c, nth c (s_K s') [] = if (k <=? c)%nat && (c <? k + n)%nat && (0 <=? b_start b c)%Z then Inverse (p_dim (b_mesh b)) (b_lu b) (nth c (s_K s) []) else nth c (s_K s) [].
Proof.
  intros b n. induction n as [|n IH]; intros k s s' E; cbn [loop] in E.
  - injection E as <-. split; [reflexivity|]. intro c. destruct (Nat.leb_spec k c), (Nat.ltb_spec c (k + 0)); try reflexivity. lia.
  - destruct (compute_cell b k s) as [s1| |] eqn:E1; cbn [bind] in E; try discriminate E. destruct (cell_tensors _ _ _ _ E1) as [L1 T1]. destruct (IH _ _ _ E) as [L2 T2].
    split; [congruence|]. intro c. rewrite T2, T1.
    destruct (Nat.leb_spec (S k) c), (Nat.ltb_spec c (S k + n)), (Nat.eqb_spec k c), (Nat.leb_spec k c), (Nat.ltb_spec c (k + S n)); try lia; cbn [andb]; try reflexivity;
      destruct (0 <=? b_start b c)%Z; reflexivity.
Qed.

Section run.
Variable b : problem.
Let m := b_mesh b.
Let dim := p_dim m.
Variables (K : list (list R)) (Kinv : nat -> list R) (place : nat -> nat -> nat * bool).
Hypothesis WP : well_posed b K Kinv place.
Let SZ : sized b := wp_sized _ _ _ _ WP.
Lemma inverse_equal : forall c, (c < p_cells m)%nat -> Inverse dim (b_lu b) (nth c K []) = Kinv c.
Proof.
  intros c Hc. destruct (wp_tensor _ _ _ _ WP c Hc) as [L S]. destruct (wp_inverse _ _ _ _ WP c Hc) as [L' I]. fold m dim in L, L', I.
  assert (D : determinant dim (nth c K []) <> 0) by (apply (inverse_det dim _ (proj1 SZ) L (Kinv c) L' I)).
  pose proof (inverse_length dim _ (proj1 SZ) L (b_lu b) D) as LI.
  apply (nth_ext _ _ 0 0); [congruence|]. intros i Hi. rewrite LI in Hi. pose proof (proj1 SZ) as HD. fold m dim in HD. fold dim in Hi.
  assert (P : (0 < dim)%nat) by lia. rewrite (Nat.div_mod_eq i dim), Nat.mul_comm.
  apply (inverse_unique dim _ (proj1 SZ) L (b_lu b) (Kinv c) L' I); [apply Nat.div_lt_upper_bound; lia|apply Nat.mod_upper_bound; lia].
Qed.
Variable size : nat.
Hypothesis RG : in_range b size.
Lemma tensors_proof : forall s, ComputeSystem b (mkState K (fun _ _ => 0) (fun _ => 0)) = Ok s ->
  length (s_K s) = p_cells m /\ forall c, (c < p_cells m)%nat -> nth c (s_K s) [] = Kinv c.
Proof.
  intros s E. unfold ComputeSystem, for_ in E. destruct (run_tensors _ _ _ _ _ E) as [L T]. cbn [s_K] in L, T. split; [rewrite L; exact (wp_tensors _ _ _ _ WP)|].
  intros c Hc. rewrite T. fold m. destruct (Nat.ltb_spec c (0 + p_cells m)); [|lia]. cbn [Nat.leb andb].
  destruct (Z.leb_spec 0 (b_start b c)); [apply inverse_equal; exact Hc|]. pose proof (wp_owned _ _ _ _ WP c Hc). lia.
Qed.
(** The second run works with the inverse of the inverse. *)
Lemma again_proof : forall s, ComputeSystem b (mkState K (fun _ _ => 0) (fun _ => 0)) = Ok s ->
  exists s', ComputeSystem b (mkState (s_K s) (fun _ _ => 0) (fun _ => 0)) = Ok s' /\
  forall phi, (forall c, (c < p_cells m)%nat -> basis_functions b c (phi c)) -> forall U, solves s' size U <-> weak_solution b phi (fun c => nth c K []) place U.
Proof.
  intros s E. destruct (tensors_proof s E) as [L T].
  assert (WP' : well_posed b (s_K s) (fun c => nth c K []) place).
  { constructor.
    - exact SZ.
    - exact (wp_owned _ _ _ _ WP).
    - exact (wp_regular _ _ _ _ WP).
    - exact L.
    - intros c Hc. rewrite (T c Hc). destruct (wp_tensor _ _ _ _ WP c Hc) as [LK S]. destruct (wp_inverse _ _ _ _ WP c Hc) as [L' I]. split; [exact L'|].
      rewrite <- (inverse_equal c Hc). apply (inverse_symmetric dim _ (proj1 SZ) LK (b_lu b) (inverse_det dim _ (proj1 SZ) LK (Kinv c) L' I) S).
    - intros c Hc. rewrite (T c Hc). destruct (wp_tensor _ _ _ _ WP c Hc) as [LK S]. destruct (wp_inverse _ _ _ _ WP c Hc) as [L' I]. split; [exact LK|].
      rewrite <- (inverse_equal c Hc). apply (inverse_right dim _ (proj1 SZ) LK (b_lu b) (inverse_det dim _ (proj1 SZ) LK (Kinv c) L' I)).
    - exact (wp_place _ _ _ _ WP). }
  exact (system_proof b (s_K s) (fun c => nth c K []) place WP' size RG).
Qed.
End run.

(** ** Any tensors *)
Lemma runs_proof : forall b K place, sized b -> (forall c, (c < p_cells (b_mesh b))%nat -> cell_regular b c) -> length K = p_cells (b_mesh b) ->
  (forall c f, (c < p_cells (b_mesh b))%nat -> In f (b_cone b c) -> placed b c f (fst (place c f)) (snd (place c f))) ->
  (forall c, (c < p_cells (b_mesh b))%nat -> length (nth c K []) = (p_dim (b_mesh b) * p_dim (b_mesh b))%nat) ->
  (forall M, length M = (p_dim (b_mesh b) * p_dim (b_mesh b))%nat -> length (b_lu b M) = (p_dim (b_mesh b) * p_dim (b_mesh b))%nat) ->
  exists s, ComputeSystem b (mkState K (fun _ _ => 0) (fun _ => 0)) = Ok s.
Proof.
  intros b K place SZ RG LK PL HK HL. set (m := b_mesh b) in *. set (dim := p_dim m) in *.
  unfold ComputeSystem. fold m.
  destruct (for_inv (fun t s => length (s_K s) = p_cells m /\ (forall c, (t <= c < p_cells m)%nat -> length (nth c (s_K s) []) = (dim * dim)%nat)) (compute_cell b) (p_cells m) (mkState K (fun _ _ => 0) (fun _ => 0)))
    as [s [E _]]; [| |exists s; exact E].
  - cbn [s_K]. split; [exact LK|]. intros c Hc. apply HK. lia.
  - intros c s Hc [L1 L2]. unfold compute_cell. destruct (b_start b c <? 0)%Z eqn:ST.
    + exists s. split; [reflexivity|]. split; [exact L1|]. intros c' Hc'. apply L2. lia.
    + rewrite (rd_nth []) by lia. cbn [bind]. fold m dim.
      assert (LI : length (Inverse dim (b_lu b) (nth c (s_K s) [])) = (dim * dim)%nat).
      { pose proof (L2 c ltac:(lia)) as X. unfold Inverse. destruct (Req_EM_T _ _); [apply HL; exact X|]. rewrite map_length. unfold adjugate.
        destruct (proj1 SZ) as [Y|Y]; fold m dim in Y; rewrite Y; reflexivity. }
      destruct (local_ok b SZ c Hc _ LI (shapes b c) (basis_exists b c SZ (RG c Hc)) (place c) (fun f Hf => PL c f Hc Hf)) as [M [F [E1 [E2 [E3 _]]]]].
      rewrite E1. cbn [bind]. rewrite (n_eq b SZ). fold m dim. set (n := (dim * 2 ^ dim + 1)%nat).
      assert (SM : (n <= 25 /\ n * n <= 625)%nat) by (unfold n; destruct (proj1 SZ) as [Y|Y]; fold m dim in Y; rewrite Y; simpl; lia).
      assert (LG : (n <= length (skipn (c * n) (b_LtoG b)))%nat).
      { rewrite skipn_length. destruct SZ as [_ [_ [_ [-> _]]]]. fold m dim. fold n. nia. }
      destruct (assemble_ok n (skipn (c * n) (b_LtoG b)) (M, F) (s_A s) (s_F s) LG ltac:(cbn [fst]; lia) ltac:(cbn [snd]; lia)) as [A' [F' [E4 _]]].
      rewrite E4. cbn [bind fst snd]. eexists. split; [reflexivity|]. cbn [s_K]. split; [rewrite length_upd; exact L1|].
      intros c' Hc'. rewrite <- (L2 c') by lia. f_equal.
      assert (X : nth_error (upd (s_K s) c (Inverse dim (b_lu b) (nth c (s_K s) []))) c' = nth_error (s_K s) c') by (apply nth_upd_other; lia).
      destruct (nth_error (s_K s) c') eqn:Y.
      * rewrite (nth_error_nth _ _ [] X), (nth_error_nth _ _ [] Y). reflexivity.
      * apply nth_error_None in Y. lia.
Qed.

(** ** Without a boundary pressure *)
Lemma open_proof : forall b phi Kinv place U, b_pressure b = None ->
  (weak_solution b phi Kinv place U <-> weak_solution (with_pressure b (fun _ => 0)) phi Kinv place U).
Proof.
  intros b phi Kinv place U HN. unfold weak_solution.
  assert (E : forall c V Q, linear b c (phi c) (place c) V Q = linear (with_pressure b (fun _ => 0)) c (phi c) (place c) V Q).
  { intros c V Q. unfold linear. cbn [with_pressure b_pressure b_forcing b_marker b_cone b_mesh]. rewrite HN. unfold Rminus. f_equal.
    symmetry. rewrite <- Ropp_0. f_equal. rewrite (sum_ext _ _ (fun _ => 0)); [apply sum_none|]. intros f _. unfold surface_integral.
    rewrite (sum_ext _ _ (fun _ => 0)); [apply sum_none|]. intros q _. ring. }
  split; intros H V; specialize (H V).
  - rewrite <- (total_ext _ _ _ (fun c _ => E c (at_cell b V c) (pressure_at b V c))). exact H.
  - rewrite (total_ext _ _ _ (fun c _ => E c (at_cell b V c) (pressure_at b V c))). exact H.
Qed.

(** ** The exact solution for a linear pressure *)
Section linear.
Variables (b : problem) (corner : nat -> nat -> nat) (wall : nat -> nat -> bool -> nat).
Let m := b_mesh b.
Let dim := p_dim m.
Let nv := (2 ^ dim)%nat.
Hypothesis SU : set_up b corner wall.
Variables (area : nat -> R) (K0 : list R) (p0 : R) (g : nat -> R).
Definition owns (j p : nat) : bool := (first_unknown (b_start b p) <=? Z.of_nat j)%Z && (Z.of_nat j <? first_unknown (b_start b p) + size_of m p)%Z.
Definition points : list nat := seq 0 (p_cells m) ++ filter (is_face m) (seq 0 (p_fEnd m)).
Definition value_at (p : nat) : R :=
  if is_face m p then area p * SpecBdm.dot dim (p_N m p) (fun k => - times dim K0 g k) else linear_function b p0 g (p_X m p).
Definition exact_vector (j : nat) : R := match find (owns j) points with Some p => value_at p | None => 0 end.
Lemma in_points : forall p, In p points <-> carries m p.
Proof.
  intro p. unfold points, carries. rewrite in_app_iff, filter_In, !in_seq. split.
  - intros [H|[_ H]]; [left; lia|right; exact H].
  - intros [H|H]; [left; lia|right]. split; [|exact H]. unfold is_face in H. apply andb_prop in H. destruct H as [_ H]. apply Nat.ltb_lt in H. lia.
Qed.
Lemma exact_at : forall p z, carries m p -> (first_unknown (b_start b p) <= z < first_unknown (b_start b p) + size_of m p)%Z -> exact_vector (Z.to_nat z) = value_at p.
Proof.
  intros p z Hp Hz. assert (Z0 : (0 <= z)%Z) by (unfold first_unknown in Hz; lia). unfold exact_vector.
  assert (O : owns (Z.to_nat z) p = true) by (unfold owns; rewrite Z2Nat.id by exact Z0; apply andb_true_intro; split; [apply Z.leb_le; lia|apply Z.ltb_lt; lia]).
  destruct (find _ _) as [q|] eqn:F.
  - apply find_some in F. destruct F as [F1 F2]. apply in_points in F1. destruct (Nat.eq_dec p q) as [<-|Hne]; [reflexivity|]. exfalso.
    unfold owns in F2. rewrite Z2Nat.id in F2 by exact Z0. apply andb_prop in F2. destruct F2 as [X Y]. apply Z.leb_le in X. apply Z.ltb_lt in Y.
    destruct (proj2 (su_ranges _ _ _ SU) p q Hp F1 Hne) as [W|W]; fold m in W; lia.
  - exfalso. pose proof (find_none _ _ F p (proj2 (in_points p) Hp)) as X. congruence.
Qed.
Lemma exact_exists : is_exact b wall area K0 p0 g exact_vector.
Proof.
  intros c Hc. pose proof (proj1 (su_ranges _ _ _ SU) c Hc) as NFc. fold m in NFc. destruct (proj2 (unknowns b corner wall SU) c Hc) as [P H]. split.
  - unfold pressure_at, at_cell. rewrite P. rewrite (exact_at c).
    + unfold value_at. rewrite NFc. reflexivity.
    + left. exact Hc.
    + unfold size_of. rewrite NFc. lia.
  - intros v d Hv Hd f. destruct (H v d Hv Hd) as [_ [_ [i [Hi E]]]]. unfold at_cell. rewrite E. fold f. fold f in Hi.
    destruct (bx_wall _ _ _ (su_boxes _ _ _ SU) c d (Nat.testbit v d) Hc Hd) as [_ W2]. change (wall c d (Nat.testbit v d)) with f in W2. fold m in W2.
    assert (FR : (p_fStart m <= f < p_fEnd m)%nat).
    { unfold is_face in W2. apply andb_prop in W2. destruct W2 as [X Y]. apply Nat.leb_le in X. apply Nat.ltb_lt in Y. lia. }
    destruct (su_faces _ _ _ SU _ FR) as [_ LN]. rewrite (exact_at f).
    + unfold value_at. rewrite W2. reflexivity.
    + right. exact W2.
    + unfold size_of. fold m. rewrite W2. assert (LT : (i < length (vertices_of m f))%nat) by (apply nth_error_Some; fold m in Hi; congruence).
      fold m in LN. rewrite LN in LT. fold m. lia.
Qed.

Variables (K : list (list R)) (Kinv : nat -> list R) (DF : nat -> list R) (J : nat -> R) (size : nat).
Hypothesis WP : well_posed b K Kinv (place_of b wall).
Hypothesis SAME : forall c, (c < p_cells m)%nat -> nth c K [] = K0.
Hypothesis GE : parallelepipeds b corner wall DF J area.
Hypothesis TS : two_sided b wall.
Hypothesis BM : boundary_marked b wall.
Hypothesis FULL : b_lumped b = false.
Hypothesis NF : b_forcing b = None.
Hypothesis PB : exists gb, b_pressure b = Some gb /\ forall x, gb x = linear_function b p0 g (fun k => nth k x 0).
Hypothesis RG : in_range b size.
Lemma shapes_ok : forall c, (c < p_cells m)%nat -> basis_functions b c (shapes b c).
Proof. intros c Hc. apply basis_exists; [exact (wp_sized _ _ _ _ WP)|]. apply (wp_regular _ _ _ _ WP). exact Hc. Qed.
Lemma exact_proof : exists s, ComputeSystem b (mkState K (fun _ _ => 0) (fun _ => 0)) = Ok s /\ forall U, is_exact b wall area K0 p0 g U -> solves s size U.
Proof.
  destruct (system_proof b K Kinv (place_of b wall) WP size RG) as [s [E H]]. exists s. split; [exact E|]. intros U EU.
  apply (H (shapes b) shapes_ok U). apply (exact_weak b corner wall SU TS BM DF J area GE K0 Kinv p0 g); try assumption.
  intros c Hc. rewrite <- (SAME c Hc). apply (wp_inverse _ _ _ _ WP c Hc).
Qed.
Hypothesis POS : positive dim K0.
Hypothesis RE : forall c, (c < p_cells m)%nat -> reaches b wall c.
Hypothesis CV : covered b size.
Lemma proper_cell : forall c, (c < p_cells m)%nat -> proper b c.
Proof.
  intros c Hc xi Hin. destruct (proj2 GE c Hc) as [L [HJ [[DI [_ I]] [H _]]]]. destruct (H xi Hin) as [E1 [E2 _]]. rewrite E1, E2.
  split; [exact L|]. split; [exact HJ|]. exists DI. exact I.
Qed.
Lemma linear_proof : exists s U, ComputeSystem b (mkState K (fun _ _ => 0) (fun _ => 0)) = Ok s /\ solves s size U /\ is_exact b wall area K0 p0 g U /\
  forall U', solves s size U' -> is_exact b wall area K0 p0 g U'.
Proof.
  destruct exact_proof as [s [E HX]].
  destruct (solvable_proof b corner wall SU K Kinv (place_of b wall) WP (fun c Hc => eq_ind_r (positive dim) POS (SAME c Hc)) proper_cell RE size RG CV) as [s' [U0 [E' [_ UN]]]].
  assert (s' = s) by congruence. subst s'. exists s, exact_vector. split; [exact E|]. split; [apply HX; exact exact_exists|]. split; [exact exact_exists|].
  intros U' HU'. pose proof (UN U' HU') as E1. pose proof (UN exact_vector (HX _ exact_exists)) as E2.
  assert (EQ : forall c r, (c < p_cells m)%nat -> (r < dim * nv + 1)%nat -> at_cell b U' c r = at_cell b exact_vector c r).
  { intros c r Hc Hr. pose proof (RG c r Hc Hr) as X. unfold at_cell. rewrite E1, E2 by lia. reflexivity. }
  intros c Hc. destruct (exact_exists c Hc) as [X1 X2]. split.
  - unfold pressure_at. rewrite EQ; [exact X1|exact Hc|]. unfold nv, dim, m. lia.
  - intros v d Hv Hd. fold m dim. rewrite EQ; [apply (X2 v d Hv Hd)|exact Hc|]. fold m dim in Hv, Hd. fold nv in Hv. nia.
Qed.
End linear.
