(** Linear pressures are solutions of the BDM system on parallelepipeds (continued). *)
From Coq Require Import Reals List ZArith Bool Arith Lia Lra Permutation.
From Verif Require Import Prelude Arrays SpecFvtpf FvtpfSumProofs MpfaoProofs Hdiv SpecHdiv HdivProofs FeMap SpecFeMap FeMapProofs.
From Verif Require Import Bdm SpecBdm SpecBdmMesh BdmProofs BdmLocalProofs BdmInverseProofs BdmGlobalProofs BdmMeshProofs BdmFluxProofs BdmSolveProofs BdmPatchProofs.
Import ListNotations.
Local Open Scope R_scope.

Section exact.
Variables (b : problem) (corner : nat -> nat -> nat) (wall : nat -> nat -> bool -> nat).
Let m := b_mesh b.
Let dim := p_dim m.
Let nv := (2 ^ dim)%nat.
Let N := (dim * nv)%nat.
Hypothesis SU : set_up b corner wall.
Let SZ : sized b := proj1 (setup_proof b corner wall SU).
Let HD : (dim = 2 \/ dim = 3)%nat := proj1 SZ.

(** ** Sums over the faces of all cells *)
Definition both (h : bool -> R) : R := h false + h true.
Lemma toward_sum : forall c f d s, (c < p_cells m)%nat -> (d < dim)%nat -> wall c d s = f ->
  total (fun d => both (fun s => if (wall c d s =? f)%nat then toward b c f else 0)) dim = toward b c f.
Proof.
  intros c f d s Hc Hd E. rewrite (total_ext _ (fun d' => if (d =? d')%nat then toward b c f else 0)).
  - apply (total_pick (fun _ => toward b c f)). exact Hd.
  - intros d' Hd'. unfold both.
    assert (A : forall s', (wall c d' s' =? f)%nat = (d =? d')%nat && Bool.eqb s s').
    { intro s'. destruct (Nat.eqb_spec (wall c d' s') f) as [X|X].
      - rewrite <- E in X. destruct (wall_inj b corner wall SU c d' s' d s Hc Hd' Hd X) as [-> ->]. rewrite Nat.eqb_refl, eqb_reflx. reflexivity.
      - destruct (Nat.eqb_spec d d') as [<-|]; [|reflexivity]. destruct (Bool.eqb s s') eqn:Q; [|reflexivity]. apply eqb_prop in Q. subst s'. contradiction. }
    rewrite !A. destruct (d =? d')%nat, s; simpl; ring.
Qed.
Lemma toward_none : forall c f, (forall d s, (d < dim)%nat -> wall c d s <> f) -> total (fun d => both (fun s => if (wall c d s =? f)%nat then toward b c f else 0)) dim = 0.
Proof.
  intros c f H. rewrite (total_ext _ (fun _ => 0)); [apply total_zero|]. intros d Hd. unfold both.
  destruct (Nat.eqb_spec (wall c d false) f) as [E|_]; [exfalso; apply (H d false Hd E)|].
  destruct (Nat.eqb_spec (wall c d true) f) as [E|_]; [exfalso; apply (H d true Hd E)|]. ring.
Qed.
Lemma by_faces : forall G, total (fun c => total (fun d => both (fun s => toward b c (wall c d s) * G (wall c d s))) dim) (p_cells m)
  = total (fun f => G f * total (fun c => total (fun d => both (fun s => if (wall c d s =? f)%nat then toward b c f else 0)) dim) (p_cells m)) (p_fEnd m).
Proof.
  intro G. symmetry. rewrite (total_ext _ (fun f => total (fun c => total (fun d => both (fun s => if (wall c d s =? f)%nat then toward b c f * G f else 0)) dim) (p_cells m))).
  2: { intros f _. rewrite <- total_scale_l. apply total_ext. intros c _. rewrite <- total_scale_l. apply total_ext. intros d _. unfold both.
       destruct (wall c d false =? f)%nat, (wall c d true =? f)%nat; ring. }
  rewrite total_swap. apply total_ext. intros c Hc. rewrite total_swap. apply total_ext. intros d Hd. unfold both. rewrite total_plus.
  assert (A : forall s, (wall c d s < p_fEnd m)%nat).
  { intro s. destruct (bx_wall _ _ _ (su_boxes _ _ _ SU) c d s Hc Hd) as [_ W2]. fold m in W2. unfold is_face in W2. apply andb_prop in W2. destruct W2 as [_ Y]. apply Nat.ltb_lt in Y. exact Y. }
  rewrite (total_pick (fun f => toward b c f * G f) (p_fEnd m) (wall c d false) (A false)), (total_pick (fun f => toward b c f * G f) (p_fEnd m) (wall c d true) (A true)). reflexivity.
Qed.
Hypothesis TS : two_sided b wall.
Hypothesis BM : boundary_marked b wall.
Lemma interior_cancel : forall G, (forall c d s, (c < p_cells m)%nat -> (d < dim)%nat -> b_marker b (wall c d s) = 1%Z -> G (wall c d s) = 0) ->
  total (fun c => total (fun d => both (fun s => toward b c (wall c d s) * G (wall c d s))) dim) (p_cells m) = 0.
Proof.
  intros G H. rewrite by_faces. rewrite (total_ext _ (fun _ => 0)); [apply total_zero|]. intros f _.
  set (has := fun c => existsb (fun p => (wall c (fst p) (snd p) =? f)%nat) (list_prod (seq 0 dim) [false; true])).
  assert (HAS : forall c, has c = true -> exists d s, (d < dim)%nat /\ wall c d s = f).
  { intros c X. unfold has in X. apply existsb_exists in X. destruct X as [[d s] [X1 X2]]. apply in_prod_iff in X1. destruct X1 as [X1 _]. apply in_seq in X1.
    apply Nat.eqb_eq in X2. exists d, s. split; [lia|exact X2]. }
  assert (NOT : forall c, has c = false -> forall d s, (d < dim)%nat -> wall c d s <> f).
  { intros c X d s Hd E. unfold has in X. assert (Y : existsb (fun p => (wall c (fst p) (snd p) =? f)%nat) (list_prod (seq 0 dim) [false; true]) = true).
    { apply existsb_exists. exists (d, s). split; [apply in_prod_iff; split; [apply in_seq; lia|destruct s; simpl; tauto]|]. cbn [fst snd]. apply Nat.eqb_eq. exact E. }
    rewrite Y in X. discriminate X. }
  destruct (existsb has (seq 0 (p_cells m))) eqn:EX.
  - apply existsb_exists in EX. destruct EX as [c [Ic Hh]]. apply in_seq in Ic. destruct (HAS c Hh) as [d [s [Hd E]]].
    assert (Hc : (c < p_cells m)%nat) by lia. pose proof (BM c d s Hc Hd) as M. rewrite E in M. destruct (Z.eqb_spec (b_marker b f) 1) as [Em|Em].
    + rewrite <- E. rewrite (H c d s Hc Hd ltac:(rewrite E; exact Em)). ring.
    + destruct M as [c' [d' [s' [SH Only]]]]. pose proof SH as [_ [_ [Hc' [Hd' [Hne E']]]]]. fold m dim in Hc', Hd'.
      assert (OPP := toward_opposite b wall c d s c' d' s' TS SH). rewrite E in OPP.
      rewrite (total_ext (fun c0 => total _ dim) (fun k => (if (c =? k)%nat then toward b k f else 0) + (if (c' =? k)%nat then toward b k f else 0))).
      * rewrite total_plus. rewrite (total_pick (fun k => toward b k f) _ c Hc), (total_pick (fun k => toward b k f) _ c' Hc'). rewrite OPP. ring.
      * intros k Hk. destruct (Nat.eqb_spec c k) as [<-|Dk].
        -- rewrite (toward_sum c f d s Hc Hd E). destruct (Nat.eqb_spec c' c); [lia|]. ring.
        -- destruct (Nat.eqb_spec c' k) as [<-|Dk'].
           ++ rewrite (toward_sum c' f d' s' Hc' Hd' ltac:(rewrite <- E'; exact E)). ring.
           ++ rewrite toward_none; [ring|]. intros d2 s2 Hd2 E2. apply Dk'. symmetry. apply (Only k d2 s2). repeat split; try assumption. rewrite E. symmetry. exact E2.
  - rewrite (total_ext (fun c0 => total _ dim) (fun _ => 0)); [rewrite total_zero; ring|]. intros c Hc. apply toward_none. apply NOT.
    destruct (has c) eqn:X; [|reflexivity]. exfalso. assert (Y : existsb has (seq 0 (p_cells m)) = true) by (apply existsb_exists; exists c; split; [apply in_seq; lia|exact X]).
    rewrite Y in EX. discriminate EX.
Qed.

Variables (DF : nat -> list R) (J area : nat -> R).
Hypothesis GE : parallelepipeds b corner wall DF J area.
Variables (K0 : list R) (Kinv : nat -> list R) (p0 : R) (g : nat -> R).
Hypothesis KI : forall c, (c < p_cells m)%nat -> inverse_of dim (Kinv c) K0.
Let u (k : nat) : R := - times dim K0 g k.
Let gh (c j : nat) : R := total (fun k => g k * nth (k * dim + j) (DF c) 0) dim.

Lemma regular_cell : forall c, (c < p_cells m)%nat -> cell_regular b c.
Proof.
  intros c Hc xi Hin. destruct (proj2 GE c Hc) as [L [HJ [_ [H _]]]]. destruct (H xi Hin) as [E1 [E2 _]]. rewrite E1, E2. split; [exact L|lra].
Qed.
Lemma flow_gradient : forall c i, (c < p_cells m)%nat -> (i < dim)%nat -> times dim (Kinv c) u i = - g i.
Proof.
  intros c i Hc Hi. unfold times, u.
  rewrite (total_ext _ (fun j => total (fun l => (-1) * g l * (nth (i * dim + j) (Kinv c) 0 * nth (j * dim + l) K0 0)) dim)).
  - rewrite total_swap. rewrite (total_ext _ (fun l => if (i =? l)%nat then - g l else 0)).
    + apply (total_pick (fun l => - g l)). exact Hi.
    + intros l Hl. rewrite total_scale_l, (KI c Hc i l Hi Hl). destruct (i =? l)%nat; ring.
  - intros j Hj. unfold times. rewrite <- Ropp_mult_distr_r, Ropp_mult_distr_l, <- total_scale_l. apply total_ext. intros. ring.
Qed.
(** The flow on the reference cell. *)
Definition uh (c j : nat) : R := J c * times dim (Inverse dim (b_lu b) (DF c)) u j.
Lemma uh_mapped : forall c k, (c < p_cells m)%nat -> (k < dim)%nat -> mapped dim (DF c) (J c) (uh c) k = u k.
Proof.
  intros c k Hc Hk. destruct (proj2 GE c Hc) as [L [HJ [[DI [LI I]] _]]]. fold m dim in L, LI, I.
  pose proof (inverse_right dim (DF c) HD L (b_lu b) (inverse_det dim (DF c) HD L DI LI I)) as IR.
  unfold mapped, uh, times.
  rewrite (total_ext _ (fun j => total (fun l => J c * u l * (nth (k * dim + j) (DF c) 0 * nth (j * dim + l) (Inverse dim (b_lu b) (DF c)) 0)) dim)).
  - rewrite total_swap. rewrite (total_ext _ (fun l => if (k =? l)%nat then J c * u l else 0)).
    + rewrite (total_pick (fun l => J c * u l)) by exact Hk. field. lra.
    + intros l Hl. rewrite total_scale_l, (IR k l Hk Hl). destruct (k =? l)%nat; ring.
  - intros j Hj. rewrite Rmult_comm, Rmult_assoc, (Rmult_comm _ (nth _ _ _)), <- total_scale_l, <- total_scale_l. apply total_ext. intros. ring.
Qed.
Lemma wall_flow : forall c d s, (c < p_cells m)%nat -> (d < dim)%nat ->
  area (wall c d s) * SpecBdm.dot dim (out_normal b c (wall c d s)) u = (if s then 1 else -1) * uh c d.
Proof.
  intros c d s Hc Hd. destruct (proj2 GE c Hc) as [_ [HJ [_ [_ [_ H]]]]]. destruct (H d s Hd) as [_ VA]. fold m dim in VA.
  rewrite <- (Rmult_comm (uh c d)). rewrite <- (flux_mapped dim (DF c) (J c) (uh c) d _ _ ltac:(lra) Hd VA).
  unfold SpecBdm.dot. rewrite <- total_scale_l. apply total_ext. intros k Hk. rewrite uh_mapped by assumption. ring.
Qed.
Variable U : nat -> R.
Hypothesis EX : is_exact b wall area K0 p0 g U.
Lemma out_toward : forall c f k, out_normal b c f k = toward b c f * p_N m f k.
Proof. reflexivity. Qed.
Lemma exact_sign : forall c v d, (c < p_cells m)%nat -> (v < nv)%nat -> (d < dim)%nat -> sign_of b c (v * dim + d) * at_cell b U c (v * dim + d) = side v d * uh c d.
Proof.
  intros c v d Hc Hv Hd. destruct (proj2 (unknowns b corner wall SU) c Hc) as [_ H]. destruct (H v d Hv Hd) as [_ [S1 _]]. fold m dim in S1. rewrite S1.
  destruct (EX c Hc) as [_ E]. specialize (E v d Hv Hd). cbv zeta in E. fold m dim in E. rewrite E.
  assert (W := wall_flow c d (Nat.testbit v d) Hc Hd). fold (side v d) in W. rewrite <- W. unfold wall_of.
  unfold SpecBdm.dot. rewrite <- !total_scale_l. apply total_ext. intros k Hk. rewrite out_toward. unfold u. ring.
Qed.
Lemma exact_field : forall c xi k, (c < p_cells m)%nat -> inside dim xi -> (k < dim)%nat -> field b c (shapes b c) (at_cell b U c) xi k = u k.
Proof.
  intros c xi k Hc Hin Hk. rewrite (field_shapes b) by exact Hk. fold m dim. destruct (proj2 GE c Hc) as [_ [_ [_ [H _]]]]. destruct (H xi Hin) as [-> [-> _]].
  rewrite <- (uh_mapped c k Hc Hk). unfold mapped. f_equal. apply total_ext. intros j Hj. f_equal.
  unfold reference_field. fold m dim nv. rewrite Nat.mul_comm, total_block, total_swap.
  rewrite (total_ext _ (fun d => if (j =? d)%nat then uh c d else 0)); [apply (total_pick (uh c)); exact Hj|]. intros d Hd.
  rewrite (total_ext _ (fun v => uh c d * (side v d * nth ((v * dim + d) * dim + j) (reference dim xi) 0))).
  - pose proof (constants dim xi d j HD (proj1 Hin) Hd Hj) as CC. fold nv in CC. rewrite total_scale_l, CC, (Nat.eqb_sym d j). destruct (j =? d)%nat; ring.
  - intros v Hv. rewrite exact_sign by assumption. ring.
Qed.
Lemma exact_outflow : forall c, (c < p_cells m)%nat -> outflow b c (at_cell b U c) = 0.
Proof.
  intros c Hc. unfold outflow. fold m dim nv. rewrite Nat.mul_comm, total_block, total_swap. rewrite (total_ext _ (fun _ => 0)); [apply total_zero|]. intros d Hd.
  rewrite (total_ext _ (fun v => uh c d * side v d)) by (intros v Hv; rewrite exact_sign by assumption; ring).
  pose proof (sides_cancel dim d HD Hd) as CC. fold nv in CC. rewrite total_scale_l, CC. ring.
Qed.

(** The pressure between the centroid of a face and a vertex of it. *)
Definition pstar (th : R) (f p : nat) : R := linear_function b p0 g (fun k => p_X m f k + th * (p_X m p k - p_X m f k)).
Lemma gh_times : forall c (x : nat -> R), SpecBdm.dot dim g (times dim (DF c) x) = total (fun j => gh c j * x j) dim.
Proof.
  intros c x. unfold SpecBdm.dot, times, gh.
  rewrite (total_ext _ (fun k => total (fun j => g k * nth (k * dim + j) (DF c) 0 * x j) dim)).
  - rewrite total_swap. apply total_ext. intros j Hj. rewrite total_scale. reflexivity.
  - intros k Hk. rewrite <- total_scale_l. apply total_ext. intros. ring.
Qed.
Lemma dot_plus : forall x y z : nat -> R, SpecBdm.dot dim x (fun k => y k + z k) = SpecBdm.dot dim x y + SpecBdm.dot dim x z.
Proof. intros. unfold SpecBdm.dot. rewrite <- total_plus. apply total_ext. intros; ring. Qed.
Lemma pstar_moment : forall lumped c v d, (c < p_cells m)%nat -> (v < nv)%nat -> (d < dim)%nat ->
  pstar (theta lumped) (wall_of wall c v d) (corner c v) = linear_function b p0 g (p_X m c) + total (fun j => gh c j * moment lumped v d j) dim.
Proof.
  intros lumped c v d Hc Hv Hd. destruct (proj2 GE c Hc) as [_ [_ [_ [_ [HC HW]]]]]. destruct (HW d (Nat.testbit v d) Hd) as [HX _].
  unfold pstar, linear_function. fold m dim. rewrite <- gh_times, Rplus_assoc, <- dot_plus. apply (f_equal (Rplus p0)). unfold SpecBdm.dot. apply total_ext. intros k Hk. f_equal.
  unfold wall_of. fold m dim in HX, HC. rewrite (HX k Hk), (HC v k Hv Hk). fold (side v d).
  assert (T : times dim (DF c) (moment lumped v d) k = (1 - theta lumped) * (nth (k * dim + d) (DF c) 0 * side v d) + theta lumped * times dim (DF c) (side v) k).
  { unfold times. rewrite <- (total_pick (fun j => nth (k * dim + j) (DF c) 0 * side v j) dim d Hd), <- !total_scale_l, <- total_plus. apply total_ext. intros j Hj.
    unfold moment. rewrite (Nat.eqb_sym j d). destruct (Nat.eqb_spec d j) as [->|]; ring. }
  rewrite T. ring.
Qed.

Let lumped := b_lumped b.
Lemma bilinear_cell : forall c V Q, (c < p_cells m)%nat ->
  bilinear b c (shapes b c) (Kinv c) (at_cell b U c) (pressure_at b U c) V Q
  = - total (fun v => total (fun d => sign_of b c (v * dim + d) * V (v * dim + d)%nat * pstar (theta lumped) (wall_of wall c v d) (corner c v)) dim) nv.
Proof.
  intros c V Q Hc. unfold bilinear. rewrite (exact_outflow c Hc). destruct (EX c Hc) as [-> _]. fold m dim.
  assert (I : integral b c (fun xi => SpecBdm.dot dim (field b c (shapes b c) V xi) (times dim (Kinv c) (field b c (shapes b c) (at_cell b U c) xi)))
    = - total (fun v => total (fun d => sign_of b c (v * dim + d) * V (v * dim + d)%nat * total (fun j => gh c j * moment lumped v d j) dim) dim) nv).
  { unfold integral. fold m dim lumped. destruct (proj2 GE c Hc) as [_ [HJ [_ [HG _]]]].
    rewrite (sum_ext _ _ (fun q => total (fun r => total (fun j => - (sign_of b c r * V r * gh c j) * (nth (r * dim + j) (reference dim (fst q)) 0 * snd q)) dim) N)).
    2: { intros q Hq. destruct (quadrature_inside _ _ _ HD Hq) as [Hin _]. destruct (HG (fst q) Hin) as [EJ [ED _]].
      assert (X : SpecBdm.dot dim (field b c (shapes b c) V (fst q)) (times dim (Kinv c) (field b c (shapes b c) (at_cell b U c) (fst q)))
        = - (SpecBdm.dot dim g (times dim (DF c) (reference_field b (fun r => sign_of b c r * V r) (fst q))) / J c)).
      { unfold SpecBdm.dot, Rdiv. rewrite <- total_scale, <- total_opp. apply total_ext. intros k Hk.
        rewrite (times_ext dim (Kinv c) _ u k (fun j Hj => exact_field c (fst q) j Hc Hin Hj)), (flow_gradient c k Hc Hk).
        rewrite (field_shapes b) by exact Hk. rewrite EJ, ED. unfold mapped, times, Rdiv. fold m dim. ring. }
      rewrite X, gh_times, ED.
      transitivity (- total (fun j => gh c j * reference_field b (fun r => sign_of b c r * V r) (fst q) j) dim * snd q); [field; lra|].
      unfold reference_field. fold m dim nv N. rewrite <- total_opp, <- total_scale.
      rewrite (total_ext _ (fun j => total (fun r => - (sign_of b c r * V r * gh c j) * (nth (r * dim + j) (reference dim (fst q)) 0 * snd q)) N)).
      - apply total_swap.
      - intros j Hj. rewrite <- total_scale_l, <- total_opp, <- total_scale. apply total_ext. intros r Hr. ring. }
    rewrite <- sum_total. unfold N. rewrite Nat.mul_comm, total_block, <- total_opp. apply total_ext. intros v Hv. rewrite <- total_opp. apply total_ext. intros d Hd.
    rewrite <- sum_total. rewrite <- total_scale_l, <- total_opp. apply total_ext. intros j Hj. rewrite sum_scale. unfold lumped. rewrite (moment_ok _ dim v d j HD Hv Hd Hj). ring. }
  rewrite I. unfold outflow. fold m dim nv. rewrite Nat.mul_comm, total_block.
  rewrite (total_ext (fun v => total (fun d => _ * pstar _ _ _) dim) (fun v => total (fun d => sign_of b c (v * dim + d) * V (v * dim + d)%nat * total (fun j => gh c j * moment lumped v d j) dim) dim
     + linear_function b p0 g (p_X m c) * total (fun d => sign_of b c (v * dim + d) * V (v * dim + d)%nat) dim)).
  - rewrite total_plus, total_scale_l. ring.
  - intros v Hv. rewrite <- total_scale_l, <- total_plus. apply total_ext. intros d Hd. rewrite (pstar_moment lumped c v d Hc Hv Hd). ring.
Qed.

(** ** In terms of faces *)
Section test.
Variable V : nat -> R.
Definition face_sum (th : R) (f : nat) : R :=
  sum_over (vertices_of m f) (fun p => V (Z.to_nat (first_unknown (b_start b f) + Z.of_nat (index_of p (vertices_of m f)))) * pstar th f p).
Lemma wall_nodup : forall c d s, (c < p_cells m)%nat -> (d < dim)%nat -> NoDup (vertices_of m (wall c d s)).
Proof.
  intros c d s Hc Hd. destruct (bx_wall _ _ _ (su_boxes _ _ _ SU) c d s Hc Hd) as [_ W2]. fold m in W2. apply (su_faces _ _ _ SU).
  unfold is_face in W2. apply andb_prop in W2. destruct W2 as [X Y]. apply Nat.leb_le in X. apply Nat.ltb_lt in Y. fold m. lia.
Qed.
Lemma wall_sum : forall th c d s, (c < p_cells m)%nat -> (d < dim)%nat ->
  sum_over (on_wall b d s) (fun v => sign_of b c (v * dim + d) * at_cell b V c (v * dim + d) * pstar th (wall c d s) (corner c v)) = toward b c (wall c d s) * face_sum th (wall c d s).
Proof.
  intros th c d s Hc Hd. unfold face_sum. rewrite <- (sum_permutation _ _ _ (wall_vertices b corner wall SU c d s Hc Hd)), sum_map, <- sum_scale. apply sum_ext.
  intros v Hv. apply (in_on_wall b) in Hv. destruct Hv as [Hv Hb]. destruct (proj2 (unknowns b corner wall SU) c Hc) as [_ H]. destruct (H v d Hv Hd) as [_ [S1 [i [Hi Ni]]]].
  fold m dim in S1, Ni, Hi. unfold wall_of in *. rewrite Hb in *. rewrite S1. unfold at_cell. rewrite Ni.
  rewrite (index_nth _ _ _ (wall_nodup c d s Hc Hd) Hi). ring.
Qed.
Lemma bilinear_faces : forall c, (c < p_cells m)%nat ->
  bilinear b c (shapes b c) (Kinv c) (at_cell b U c) (pressure_at b U c) (at_cell b V c) (pressure_at b V c)
  = - total (fun d => both (fun s => toward b c (wall c d s) * face_sum (theta lumped) (wall c d s))) dim.
Proof.
  intros c Hc. rewrite bilinear_cell by exact Hc. f_equal. rewrite total_swap. apply total_ext. intros d Hd. unfold both. rewrite <- !wall_sum by assumption.
  rewrite <- sum_seq. rewrite (filter_sides _ (fun v => Nat.testbit v d)). unfold on_wall. fold m dim nv.
  assert (A : forall s, sum_over (filter (fun v => Bool.eqb (Nat.testbit v d) s) (seq 0 nv)) (fun v => sign_of b c (v * dim + d) * at_cell b V c (v * dim + d) * pstar (theta lumped) (wall_of wall c v d) (corner c v))
    = sum_over (filter (fun v => Bool.eqb (Nat.testbit v d) s) (seq 0 nv)) (fun v => sign_of b c (v * dim + d) * at_cell b V c (v * dim + d) * pstar (theta lumped) (wall c d s) (corner c v))).
  { intro s. apply sum_ext. intros v Hv. apply filter_In in Hv. destruct Hv as [_ Hv]. apply eqb_prop in Hv. unfold wall_of. rewrite Hv. reflexivity. }
  rewrite !A. reflexivity.
Qed.
Hypothesis NF : b_forcing b = None.
Variable gb : list R -> R.
Hypothesis PB : b_pressure b = Some gb.
Hypothesis GB : forall x, gb x = linear_function b p0 g (fun k => nth k x 0).
Lemma surface_wall : forall c d s, (c < p_cells m)%nat -> (d < dim)%nat ->
  surface_integral b c (wall c d s) d s (fun xi => gb (image b c xi) * SpecBdm.dot dim (field b c (shapes b c) (at_cell b V c) xi) (out_normal b c (wall c d s)))
  = toward b c (wall c d s) * face_sum (1 / 3) (wall c d s).
Proof.
  intros c d s Hc Hd. rewrite <- wall_sum by assumption. unfold surface_integral. fold m dim.
  destruct (proj2 GE c Hc) as [_ [HJ [_ [HG [_ HW]]]]]. destruct (HW d s Hd) as [_ VA]. fold m dim in VA, HG.
  rewrite (sum_ext _ _ (fun q => sum_over (on_wall b d s) (fun v => sign_of b c (v * dim + d) * at_cell b V c (v * dim + d) *
     (face_fn dim v d s (linear_function b p0 g (p_X m c)) (gh c) (fst q) * snd q)))).
  - rewrite (sum_ext (on_wall b d s) _ (fun v => sign_of b c (v * dim + d) * at_cell b V c (v * dim + d) * sum_over (gauss_tensor (dim - 1)) (fun q => face_fn dim v d s (linear_function b p0 g (p_X m c)) (gh c) (fst q) * snd q))).
    + generalize (on_wall b d s) as l. intro l. induction l as [|v l IH]; simpl; [apply sum_none|]. rewrite sum_plus, IH, sum_scale. reflexivity.
    + intros v Hv. apply (in_on_wall b) in Hv. destruct Hv as [Hv Hb]. rewrite (face_moment dim v d s _ _ HD Hv Hd).
      rewrite <- Hb. change (wall c d (Nat.testbit v d)) with (wall_of wall c v d). change (1 / 3) with (theta false). rewrite (pstar_moment false c v d Hc Hv Hd).
      f_equal. f_equal. apply total_ext. intros j Hj. f_equal. unfold moment, theta. destruct (j =? d)%nat; [reflexivity|]. field.
  - intros q Hq. destruct (gauss_inside _ _ Hq) as [Hin _].
    assert (SB : (if s then 1 else -1) = 1 \/ (if s then 1 else -1) = -1) by (destruct s; tauto).
    assert (HI : inside dim (insert d (if s then 1 else -1) (fst q))).
    { destruct (proj2 GE c Hc) as [L _]. apply (insert_inside b c Hc (DF c) L); assumption. }
    destruct (HG _ HI) as [EJ [ED EI]].
    assert (LI : nth d (insert d (if s then 1 else -1) (fst q)) 0 = (if s then 1 else -1)).
    { unfold insert. rewrite app_nth2; rewrite firstn_length; destruct Hin as [Lq _]; [|lia]. replace (d - Nat.min d (length (fst q)))%nat with 0%nat by lia. reflexivity. }
    rewrite (proj1 GE).
    transitivity (gb (image b c (insert d (if s then 1 else -1) (fst q))) * SpecBdm.dot dim (field b c (shapes b c) (at_cell b V c) (insert d (if s then 1 else -1) (fst q))) (fun k => area (wall c d s) * out_normal b c (wall c d s) k) * snd q).
    { assert (X : forall x y : nat -> R, SpecBdm.dot dim x (fun k => area (wall c d s) * y k) = area (wall c d s) * SpecBdm.dot dim x y).
      { intros x y. unfold SpecBdm.dot. rewrite <- total_scale_l. apply total_ext. intros; ring. }
      rewrite X. ring. }
    pose proof (normal_flux_proof b corner wall SU c (shapes b c) (at_cell b V c) d s _ (fun k => area (wall c d s) * out_normal b c (wall c d s) k) Hc (regular_cell c Hc) (basis_exists b c SZ (regular_cell c Hc)) Hd HI LI ltac:(rewrite EJ, ED; exact VA)) as NFP. fold m dim in NFP. rewrite NFP.
    rewrite Rmult_assoc, (Rmult_comm _ (snd q)), <- Rmult_assoc, <- sum_scale. apply sum_ext. intros v _. fold m dim. unfold face_fn. rewrite GB. unfold linear_function at 1 2. fold m dim.
    assert (X : SpecBdm.dot dim g (fun k => nth k (image b c (insert d (if s then 1 else -1) (fst q))) 0)
      = SpecBdm.dot dim g (p_X m c) + total (fun j => gh c j * nth j (insert d (if s then 1 else -1) (fst q)) 0) dim).
    { rewrite <- (gh_times c (fun j => nth j (insert d (if s then 1 else -1) (fst q)) 0)), <- dot_plus. unfold SpecBdm.dot. apply total_ext. intros k Hk. rewrite (EI k Hk). reflexivity. }
    rewrite X. ring.
Qed.
Lemma cone_walls : forall c (h : nat -> R), (c < p_cells m)%nat -> sum_over (b_cone b c) h = total (fun d => both (fun s => h (wall c d s))) dim.
Proof.
  intros c h Hc. assert (P : Permutation (b_cone b c) (map (fun p => wall c (fst p) (snd p)) (list_prod (seq 0 dim) [false; true]))).
  { apply NoDup_Permutation.
    - apply (su_once _ _ _ SU). exact Hc.
    - assert (NP : NoDup (list_prod (seq 0 dim) [false; true])) by (destruct HD as [E|E]; rewrite E; simpl; repeat constructor; simpl; intuition discriminate).
      assert (G : forall l, NoDup l -> (forall p, In p l -> (fst p < dim)%nat) -> NoDup (map (fun p => wall c (fst p) (snd p)) l)).
      { induction l as [|[d s] l IH]; intros Nl Hl; simpl; constructor; inversion Nl as [|? ? N1 N2]; subst.
        - intro X. apply in_map_iff in X. destruct X as [[d' s'] [E X]]. cbn [fst snd] in E.
          destruct (wall_inj b corner wall SU c d' s' d s Hc (Hl _ (or_intror X)) (Hl _ (or_introl eq_refl)) E) as [-> ->]. contradiction.
        - apply IH; [assumption|]. intros p Hp. apply Hl. right. exact Hp. }
      apply G; [exact NP|]. intros [d s] X. apply in_prod_iff in X. destruct X as [X _]. apply in_seq in X. cbn [fst]. lia.
    - intro f. rewrite (su_cone _ _ _ SU c f Hc). fold m dim. rewrite in_map_iff. split.
      + intros [d [s [Hd ->]]]. exists (d, s). split; [reflexivity|]. apply in_prod_iff. split; [apply in_seq; lia|destruct s; simpl; tauto].
      + intros [[d s] [<- X]]. apply in_prod_iff in X. destruct X as [X _]. apply in_seq in X. exists d, s. split; [lia|reflexivity]. }
  rewrite (sum_permutation _ _ _ P), sum_map. destruct HD as [E|E]; rewrite E; unfold both; simpl; ring.
Qed.
Lemma linear_faces : forall c, (c < p_cells m)%nat ->
  linear b c (shapes b c) (place_of b wall c) (at_cell b V c) (pressure_at b V c)
  = - total (fun d => both (fun s => if (b_marker b (wall c d s) =? 1)%Z then toward b c (wall c d s) * face_sum (1 / 3) (wall c d s) else 0)) dim.
Proof.
  intros c Hc. unfold linear. rewrite NF, PB. fold m dim. rewrite sum_filter. rewrite (cone_walls c _ Hc). rewrite Rmult_0_r, Rminus_0_r. f_equal.
  apply total_ext. intros d Hd. unfold both. rewrite !(place_wall b corner wall SU) by assumption. cbn [fst snd]. rewrite !surface_wall by assumption. reflexivity.
Qed.
(** What remains of the weak form: the boundary, with lumping. *)
Lemma residual : total (fun c => bilinear b c (shapes b c) (Kinv c) (at_cell b U c) (pressure_at b U c) (at_cell b V c) (pressure_at b V c)) (p_cells m)
  - total (fun c => linear b c (shapes b c) (place_of b wall c) (at_cell b V c) (pressure_at b V c)) (p_cells m)
  = total (fun c => total (fun d => both (fun s => if (b_marker b (wall c d s) =? 1)%Z then toward b c (wall c d s) * (face_sum (1 / 3) (wall c d s) - face_sum (theta lumped) (wall c d s)) else 0)) dim) (p_cells m).
Proof.
  assert (Z := interior_cancel (fun f => if (b_marker b f =? 1)%Z then 0 else face_sum (theta lumped) f)).
  rewrite (total_ext _ _ _ bilinear_faces), (total_ext _ _ _ linear_faces). rewrite !total_opp.
  rewrite <- (Rplus_0_r (- total (fun c => total (fun d => both (fun s => toward b c (wall c d s) * face_sum (theta lumped) (wall c d s))) dim) (p_cells m))).
  rewrite <- Z at 1.
  - rewrite <- !total_opp. unfold Rminus. rewrite <- total_opp. rewrite <- !total_plus. apply total_ext. intros c Hc. rewrite <- !total_opp, <- !total_plus. apply total_ext. intros d Hd. unfold both.
    destruct (b_marker b (wall c d false) =? 1)%Z, (b_marker b (wall c d true) =? 1)%Z; ring.
  - intros c d s _ _ E. rewrite E. reflexivity.
Qed.
End test.

Lemma exact_weak : b_lumped b = false -> b_forcing b = None -> (exists gb, b_pressure b = Some gb /\ forall x, gb x = linear_function b p0 g (fun k => nth k x 0)) ->
  weak_solution b (shapes b) Kinv (place_of b wall) U.
Proof.
  intros FL NF [gb [PB GB]] V. fold m. apply Rminus_diag_uniq. rewrite (residual V NF gb PB GB). unfold lumped. rewrite FL. unfold theta.
  rewrite (total_ext _ (fun _ => 0)); [apply total_zero|]. intros c _. rewrite (total_ext _ (fun _ => 0)); [apply total_zero|]. intros d _. unfold both.
  destruct (b_marker b (wall c d false) =? 1)%Z, (b_marker b (wall c d true) =? 1)%Z; ring.
Qed.
End exact.
