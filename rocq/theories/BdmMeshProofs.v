(** The unknowns of the BDM system on a mesh, and the balance of mass. *)
From Coq Require Import Reals List ZArith Bool Arith Lia Lra Permutation.
From Verif Require Import Prelude Arrays SpecFvtpf FvtpfSumProofs MpfaoProofs Hdiv SpecHdiv HdivProofs FeMap SpecFeMap FeMapProofs FeMapUnknownProofs.
From Verif Require Import Bdm SpecBdm SpecBdmMesh BdmProofs BdmLocalProofs BdmInverseProofs BdmGlobalProofs.
Import ListNotations.
Local Open Scope R_scope.

Fixpoint index_of (p : nat) (l : list nat) : nat := match l with [] => 0 | x :: l => if (x =? p)%nat then 0 else S (index_of p l) end.
Lemma index_nth : forall l i p, NoDup l -> nth_error l i = Some p -> index_of p l = i.
Proof.
  induction l as [|x l IH]; intros i p ND H; [destruct i; discriminate H|]. inversion ND as [|? ? N1 N2]; subst. destruct i as [|i]; simpl in *.
  - injection H as ->. rewrite Nat.eqb_refl. reflexivity.
  - destruct (Nat.eqb_spec x p) as [->|]; [exfalso; apply N1; apply nth_error_In with i; exact H|]. f_equal. apply IH; assumption.
Qed.
Lemma sum_permutation : forall {X} (l k : list X) f, Permutation l k -> sum_over l f = sum_over k f.
Proof. intros X l k f H. induction H; simpl; lra. Qed.
Lemma sum_seq : forall f n, sum_over (seq 0 n) f = total f n.
Proof.
  intros f n. assert (G : forall k, sum_over (seq k n) f = total (fun i => f (k + i)%nat) n).
  { induction n as [|n IH]; intro k; [reflexivity|]. rewrite seq_S. assert (A : forall l x, sum_over (l ++ [x]) f = sum_over l f + f x).
    { intros l x. induction l as [|y l IHl]; simpl; [lra|]. rewrite IHl. lra. }
    rewrite A, IH. reflexivity. }
  apply G.
Qed.

Section mesh.
Variables (b : problem) (corner : nat -> nat -> nat) (wall : nat -> nat -> bool -> nat).
Let m := b_mesh b.
Let dim := p_dim m.
Let nv := (2 ^ dim)%nat.
Let N := (dim * nv)%nat.
Hypothesis SU : set_up b corner wall.
Let B : boxes m corner wall := su_boxes _ _ _ SU.
Let SF : square_faces m := su_faces _ _ _ SU.

Lemma dims : (dim = 2 \/ dim = 3)%nat.
Proof. exact (bx_dim _ _ _ B). Qed.
(** The sign with which cell c sees the normal of face f. *)
Definition toward (c f : nat) : R :=
  if Rle_dec 0 (fold_right (fun k s => p_N m f k * (p_X m f k - p_X m c k) + s) 0 (seq 0 dim)) then 1 else -1.

Lemma unknowns : sized b /\ forall c, (c < p_cells m)%nat -> number_of b c N = first_unknown (b_start b c) /\
  forall v d, (v < nv)%nat -> (d < dim)%nat ->
    Z.abs (nth (c * nv * dim + v * dim + d) (b_emap b) 0%Z) = Z.of_nat (wall_of wall c v d)
    /\ sign_of b c (v * dim + d) = toward c (wall_of wall c v d)
    /\ exists i, nth_error (vertices_of m (wall_of wall c v d)) i = Some (corner c v)
                 /\ number_of b c (v * dim + d) = (first_unknown (b_start b (wall_of wall c v d)) + Z.of_nat i)%Z.
Proof.
  destruct (su_maps _ _ _ SU) as [vm0 E0]. fold m in E0. pose proof (su_cells _ _ _ SU) as H0. fold m in H0.
  destruct (counts m corner wall B SF H0) as [C1 C2]. unfold BDMMaps in E0. rewrite C1, C2, !Nat2Z.id in E0.
  destruct (vmap_proof m corner wall B) as [vmap [E1 HV]]. rewrite E1 in E0. cbn [bind] in E0.
  destruct (emap_proof m corner wall B vmap HV) as [emap [E2 HE]]. rewrite E2 in E0. cbn [bind] in E0.
  destruct (fmap_proof m SF) as [fmap [E3 HF]]. rewrite E3 in E0. cbn [bind] in E0.
  destruct (numbering_proof m corner wall B SF vmap emap fmap (b_start b) HV HE HF) as [[L W] [E4 [S4 D4]]]. rewrite E4 in E0. cbn [bind] in E0.
  injection E0 as _ Ee EL EW. destruct S4 as [SL SW]. cbn [fst snd] in SL, SW. fold dim in SL, SW, D4, HE. fold nv in SL, SW, D4, HE.
  split.
  - split; [exact dims|]. split; [exact (su_ncv _ _ _ SU)|]. rewrite <- Ee, <- EL, <- EW. fold m dim nv. split; [exact (proj1 HE)|]. rewrite SL, SW. split; lia.
  - intros c Hc. destruct (D4 c Hc) as [D1 D2]. unfold celled in D1. cbn [fst] in D1. fold dim nv in D1. split.
    + unfold number_of. fold m dim nv N. rewrite <- EL. apply nth_error_nth. rewrite <- D1. f_equal. fold N. lia.
    + intros v d Hv Hd. destruct (D2 v d Hv Hd) as [[i [Hi Li]] Wi]. cbn [fst snd] in *. unfold lpos in Li, Wi. fold dim nv in Li, Wi.
      split; [|split].
      * rewrite <- Ee. change (c * nv * dim + v * dim + d)%nat with (pos m c v d). rewrite (nth_error_nth _ _ 0%Z (proj2 HE c v d Hc Hv Hd)). apply value_abs.
      * unfold sign_of. fold m dim nv. rewrite <- EW. rewrite Nat.add_assoc, (nth_error_nth _ _ 0%Z Wi). unfold toward, PetscSign.
        pose proof (wall_face m corner wall B c v d Hc Hd) as WF. pose proof (bx_points _ _ _ B) as P0.
        destruct (value_denotes m c (wall_of wall c v d) ltac:(lia)) as [_ [V1 V2]]. unfold outward in V1, V2. fold dim in V1, V2.
        destruct (Rle_dec 0 _) as [Ho|Ho].
        -- specialize (V1 Ho). destruct (Z.ltb_spec (value m c (wall_of wall c v d)) 0); [lia|]. destruct (Z.ltb_spec 0 (value m c (wall_of wall c v d))); [reflexivity|lia].
        -- specialize (V2 Ho). destruct (Z.ltb_spec (value m c (wall_of wall c v d)) 0); [reflexivity|lia].
      * exists i. split; [exact Hi|]. unfold number_of. fold m dim nv. rewrite <- EL, Nat.add_assoc. apply nth_error_nth. exact Li.
Qed.

Lemma wall_inj : forall c d s d' s', (c < p_cells m)%nat -> (d < dim)%nat -> (d' < dim)%nat -> wall c d s = wall c d' s' -> d = d' /\ s = s'.
Proof.
  intros c d s d' s' Hc Hd Hd' E.
  assert (A : forall v, (v < nv)%nat -> (Nat.testbit v d = s <-> Nat.testbit v d' = s')).
  { intros v Hv. rewrite <- (bx_side _ _ _ B c d s v Hc Hd Hv), <- (bx_side _ _ _ B c d' s' v Hc Hd' Hv), E. reflexivity. }
  assert (P2 : forall e, (e < dim)%nat -> (2 ^ e < nv)%nat) by (intros e He; unfold nv; apply Nat.pow_lt_mono_r; lia).
  pose proof (A 0%nat ltac:(unfold nv; pose proof (Nat.pow_nonzero 2 dim); lia)) as A0. rewrite !Nat.bits_0 in A0.
  pose proof (A _ (P2 d Hd)) as A1. rewrite Nat.pow2_bits_true, Nat.pow2_bits_eqb in A1.
  pose proof (A _ (P2 d' Hd')) as A2. rewrite Nat.pow2_bits_true, Nat.pow2_bits_eqb in A2.
  destruct (Nat.eqb_spec d d') as [->|D].
  - split; [reflexivity|]. destruct s, s'; try reflexivity; exfalso; destruct A0 as [X Y]; first [discriminate (X eq_refl)|discriminate (Y eq_refl)].
  - exfalso. destruct (Nat.eqb_spec d' d); [lia|]. destruct A0 as [X0 Y0], A1 as [X1 Y1], A2 as [X2 Y2].
    destruct s, s'; first [discriminate (X0 eq_refl)|discriminate (Y0 eq_refl)|discriminate (X1 eq_refl)|discriminate (Y1 eq_refl)|discriminate (X2 eq_refl)|discriminate (Y2 eq_refl)].
Qed.
Lemma place_wall : forall c d s, (c < p_cells m)%nat -> (d < dim)%nat -> place_of b wall c (wall c d s) = (d, s).
Proof.
  intros c d s Hc Hd. unfold place_of. fold m dim. destruct (find _ _) as [[d' s']|] eqn:E.
  - apply find_some in E. destruct E as [E1 E2]. apply in_prod_iff in E1. destruct E1 as [E1 _]. apply in_seq in E1. cbn [fst snd] in E2. apply Nat.eqb_eq in E2.
    destruct (wall_inj c d' s' d s Hc ltac:(lia) Hd E2) as [-> ->]. reflexivity.
  - exfalso. assert (X := find_none _ _ E (d, s)). cbn [fst snd] in X. rewrite Nat.eqb_refl in X. discriminate X.
    apply in_prod_iff. split; [apply in_seq; lia|destruct s; simpl; tauto].
Qed.
Lemma placed_wall : forall c d s, (c < p_cells m)%nat -> (d < dim)%nat -> placed b c (wall c d s) d s.
Proof.
  intros c d s Hc Hd. split; [exact Hd|]. fold m dim nv. intros v d' Hv Hd'. destruct (proj2 unknowns c Hc) as [_ H]. rewrite (proj1 (H v d' Hv Hd')).
  unfold wall_of. split.
  - intro E. apply Nat2Z.inj in E. destruct (wall_inj c d' _ d s Hc Hd' Hd E) as [-> ->]. split; reflexivity.
  - intros [-> ->]. reflexivity.
Qed.
Lemma placed_cone : forall c f, (c < p_cells m)%nat -> In f (b_cone b c) -> placed b c f (fst (place_of b wall c f)) (snd (place_of b wall c f)).
Proof.
  intros c f Hc Hf. apply (su_cone _ _ _ SU) in Hf; [|exact Hc]. destruct Hf as [d [s [Hd ->]]]. rewrite place_wall by assumption. apply placed_wall; assumption.
Qed.
Lemma setup_proof : sized b /\ forall c f, (c < p_cells m)%nat -> In f (b_cone b c) -> placed b c f (fst (place_of b wall c f)) (snd (place_of b wall c f)).
Proof. split; [exact (proj1 unknowns)|exact placed_cone]. Qed.

Lemma split_index : forall r, (r < N)%nat -> exists v d, (v < nv)%nat /\ (d < dim)%nat /\ r = (v * dim + d)%nat.
Proof.
  intros r Hr. assert (D : (0 < dim)%nat) by (destruct dims; lia). exists (r / dim)%nat, (r mod dim)%nat. split; [|split].
  - apply Nat.div_lt_upper_bound; [lia|exact Hr].
  - apply Nat.mod_upper_bound. lia.
  - rewrite (Nat.div_mod r dim) at 1 by lia. lia.
Qed.
Lemma number_nonneg : forall c r, (c < p_cells m)%nat -> (r < N + 1)%nat -> (0 <= number_of b c r)%Z.
Proof.
  intros c r Hc Hr. destruct (proj2 unknowns c Hc) as [H1 H2]. destruct (Nat.eq_dec r N) as [->|D].
  - rewrite H1. unfold first_unknown. lia.
  - destruct (split_index r ltac:(lia)) as [v [d [Hv [Hd ->]]]]. destruct (H2 v d Hv Hd) as [_ [_ [i [_ ->]]]]. unfold first_unknown. lia.
Qed.
(** Two unknowns are the same only on the same face and corner. *)
Lemma same_number : forall c v d c' v' d', (c < p_cells m)%nat -> (c' < p_cells m)%nat -> (v < nv)%nat -> (v' < nv)%nat -> (d < dim)%nat -> (d' < dim)%nat ->
  (number_of b c (v * dim + d) = number_of b c' (v' * dim + d') <-> wall_of wall c v d = wall_of wall c' v' d' /\ corner c v = corner c' v').
Proof.
  intros c v d c' v' d' Hc Hc' Hv Hv' Hd Hd'. destruct (proj2 unknowns c Hc) as [_ H1]. destruct (proj2 unknowns c' Hc') as [_ H2].
  destruct (H1 v d Hv Hd) as [_ [_ [i [Hi ->]]]]. destruct (H2 v' d' Hv' Hd') as [_ [_ [i' [Hi' ->]]]].
  apply (shared_proof m corner wall B SF (b_start b) c v d c' v' d' i i' (su_ranges _ _ _ SU) Hc Hc' Hv Hv' Hd Hd' Hi Hi').
Qed.
Lemma pressure_number : forall c c' r, (c < p_cells m)%nat -> (c' < p_cells m)%nat -> (r < N + 1)%nat -> number_of b c N = number_of b c' r -> c = c' /\ r = N.
Proof.
  intros c c' r Hc Hc' Hr E. destruct (proj2 unknowns c Hc) as [H1 _]. destruct (proj2 unknowns c' Hc') as [H1' H2].
  destruct (Nat.eq_dec r N) as [->|D].
  - split; [|reflexivity]. destruct (Nat.eq_dec c c') as [X|X]; [exact X|exfalso].
    destruct (su_ranges _ _ _ SU) as [R0 R1]. rewrite H1, H1' in E. fold m in R0, R1.
    destruct (R1 c c' (or_introl Hc) (or_introl Hc') X) as [Y|Y]; unfold size_of in Y; [rewrite (R0 c Hc) in Y|rewrite (R0 c' Hc') in Y]; lia.
  - exfalso. destruct (split_index r ltac:(lia)) as [v [d [Hv [Hd ->]]]]. destruct (H2 v d Hv Hd) as [_ [_ [i [Hi X]]]].
    destruct (shared_proof m corner wall B SF (b_start b) c' v d c' v d i i (su_ranges _ _ _ SU) Hc' Hc' Hv Hv Hd Hd Hi Hi) as [_ Y].
    apply (Y c Hc). rewrite <- X, <- H1. symmetry. exact E.
Qed.

(** ** Balance of mass *)
Lemma field_zero : forall c phi xi k, field b c phi (fun _ => 0) xi k = 0.
Proof. intros. unfold field. rewrite (total_ext _ (fun _ => 0)); [apply total_zero|]. intros; ring. Qed.
Lemma dot_zero : forall n x y, (forall k, (k < n)%nat -> x k = 0) -> SpecBdm.dot n x y = 0.
Proof. intros n x y H. unfold SpecBdm.dot. rewrite (total_ext _ (fun _ => 0)); [apply total_zero|]. intros k Hk. rewrite (H k Hk). ring. Qed.
Lemma field_ext : forall c phi U V xi k, (forall r, (r < N)%nat -> U r = V r) -> field b c phi U xi k = field b c phi V xi k.
Proof. intros c phi U V xi k H. unfold field. apply total_ext. intros r Hr. rewrite (H r Hr). reflexivity. Qed.
Lemma outflow_ext : forall c U V, (forall r, (r < N)%nat -> U r = V r) -> outflow b c U = outflow b c V.
Proof. intros c U V H. unfold outflow. apply total_ext. intros r Hr. rewrite (H r Hr). reflexivity. Qed.
Lemma outflow_zero : forall c, outflow b c (fun _ => 0) = 0.
Proof. intro c. unfold outflow. rewrite (total_ext _ (fun _ => 0)); [apply total_zero|]. intros; ring. Qed.
Lemma field_null : forall c phi V xi k, (forall r, (r < N)%nat -> V r = 0) -> field b c phi V xi k = 0.
Proof. intros c phi V xi k H. rewrite (field_ext c phi V (fun _ => 0) xi k H). apply field_zero. Qed.
Lemma bilinear_pressure : forall c phi Kinv U P V Q, (forall r, (r < N)%nat -> V r = 0) -> bilinear b c phi Kinv U P V Q = - Q * outflow b c U.
Proof.
  intros c phi Kinv U P V Q H. unfold bilinear. rewrite (outflow_ext c V (fun _ => 0) H), outflow_zero.
  unfold integral. fold m dim. rewrite (sum_ext _ _ (fun _ => 0)); [rewrite sum_none; ring|].
  intros q _. rewrite (dot_zero dim); [ring|]. intros k _. apply field_null. exact H.
Qed.
Lemma linear_pressure : forall c phi place V Q, (forall r, (r < N)%nat -> V r = 0) -> linear b c phi place V Q = - Q * source b c.
Proof.
  intros c phi place V Q H. unfold linear, source. fold m dim.
  assert (Z : match b_pressure b with
    | Some g => - sum_over (filter (fun f => (b_marker b f =? 1)%Z) (b_cone b c)) (fun f =>
      surface_integral b c f (fst (place f)) (snd (place f)) (fun xi => g (image b c xi) * SpecBdm.dot dim (field b c phi V xi) (out_normal b c f)))
    | None => 0 end = 0).
  { destruct (b_pressure b) as [g|]; [|reflexivity]. rewrite (sum_ext _ _ (fun _ => 0)); [rewrite sum_none; ring|].
    intros f _. unfold surface_integral. rewrite (sum_ext _ _ (fun _ => 0)); [apply sum_none|]. intros q _. rewrite (dot_zero dim); [ring|].
    intros k _. apply field_null. exact H. }
  rewrite Z. destruct (b_forcing b); ring.
Qed.

Variables (phi : nat -> list R -> list R) (Kinv : nat -> list R) (place : nat -> nat -> nat * bool).
Lemma mass_proof : forall U, weak_solution b phi Kinv place U -> forall c, (c < p_cells m)%nat -> outflow b c (at_cell b U c) = source b c.
Proof.
  intros U W c Hc. specialize (W (fun j => if (Z.to_nat (number_of b c N) =? j)%nat then 1 else 0)). set (V := fun j : nat => if (_ =? j)%nat then 1 else 0) in W.
  assert (VN : forall c', (c' < p_cells m)%nat -> forall r, (r < N + 1)%nat -> at_cell b V c' r = if (c =? c')%nat && (r =? N)%nat then 1 else 0).
  { intros c' Hc' r Hr. unfold at_cell, V.
    destruct (Nat.eqb_spec (Z.to_nat (number_of b c N)) (Z.to_nat (number_of b c' r))) as [E|E].
    - apply Z2Nat.inj in E; [|apply number_nonneg; [assumption|lia]|apply number_nonneg; assumption].
      destruct (pressure_number c c' r Hc Hc' Hr E) as [-> ->]. rewrite !Nat.eqb_refl. reflexivity.
    - destruct (Nat.eqb_spec c c') as [->|]; [|reflexivity]. destruct (Nat.eqb_spec r N) as [->|]; [exfalso; apply E; reflexivity|reflexivity]. }
  assert (VU : forall c', (c' < p_cells m)%nat -> forall r, (r < N)%nat -> at_cell b V c' r = 0).
  { intros c' Hc' r Hr. rewrite VN by (try assumption; lia). destruct (Nat.eqb_spec r N); [lia|]. rewrite andb_false_r. reflexivity. }
  assert (VP : forall c', (c' < p_cells m)%nat -> pressure_at b V c' = if (c =? c')%nat then 1 else 0).
  { intros c' Hc'. unfold pressure_at. fold m dim nv N. rewrite VN by (try assumption; lia). rewrite Nat.eqb_refl, andb_true_r. reflexivity. }
  fold m in W.
  rewrite (total_ext _ (fun c' => if (c =? c')%nat then - outflow b c' (at_cell b U c') else 0)) in W.
  2: { intros c' Hc'. rewrite bilinear_pressure by (apply VU; exact Hc'). rewrite VP by exact Hc'. destruct (c =? c')%nat; ring. }
  rewrite (total_ext (fun c0 => linear _ _ _ _ _ _) (fun c' => if (c =? c')%nat then - source b c' else 0)) in W.
  2: { intros c' Hc'. rewrite linear_pressure by (apply VU; exact Hc'). rewrite VP by exact Hc'. destruct (c =? c')%nat; ring. }
  rewrite (total_pick (fun c' => - outflow b c' (at_cell b U c'))) in W by exact Hc. rewrite (total_pick (fun c' => - source b c')) in W by exact Hc. lra.
Qed.

(** ** Flow through the faces *)
Lemma filter_sides : forall (f : nat -> R) (p : nat -> bool) l, sum_over l f = sum_over (filter (fun v => Bool.eqb (p v) false) l) f + sum_over (filter (fun v => Bool.eqb (p v) true) l) f.
Proof. intros f p l. induction l as [|x l IH]; simpl; [lra|]. destruct (p x); simpl; lra. Qed.
Lemma walls_proof : forall c U, outflow b c U = total (fun d => wall_flux b c d false U + wall_flux b c d true U) dim.
Proof.
  intros c U. unfold outflow. fold m dim nv. rewrite Nat.mul_comm, total_block, total_swap. apply total_ext. intros d Hd.
  rewrite <- sum_seq. unfold wall_flux, on_wall. fold m dim nv. rewrite (filter_sides _ (fun v => Nat.testbit v d)). reflexivity.
Qed.
Lemma in_on_wall : forall d s v, In v (on_wall b d s) <-> (v < nv)%nat /\ Nat.testbit v d = s.
Proof.
  intros d s v. unfold on_wall. fold m dim nv. rewrite filter_In, in_seq. split; intros [H1 H2]; (split; [lia|]).
  - apply eqb_prop. exact H2.
  - rewrite H2. apply eqb_reflx.
Qed.
Lemma on_wall_length : forall d s, (d < dim)%nat -> length (on_wall b d s) = (2 ^ (dim - 1))%nat.
Proof.
  intros d s Hd. unfold on_wall. fold m dim. unfold nv. destruct dims as [E|E]; rewrite E in *.
  - destruct d as [|[|d]]; [| |lia]; destruct s; reflexivity.
  - destruct d as [|[|[|d]]]; [| | |lia]; destruct s; reflexivity.
Qed.
Lemma wall_vertices : forall c d s, (c < p_cells m)%nat -> (d < dim)%nat -> Permutation (map (corner c) (on_wall b d s)) (vertices_of m (wall c d s)).
Proof.
  intros c d s Hc Hd. destruct (bx_wall _ _ _ B c d s Hc Hd) as [W1 W2].
  assert (FR : (p_fStart m <= wall c d s < p_fEnd m)%nat).
  { unfold is_face in W2. apply andb_prop in W2. destruct W2 as [X Y]. apply Nat.leb_le in X. apply Nat.ltb_lt in Y. lia. }
  destruct (SF _ FR) as [ND LN].
  apply NoDup_Permutation_bis.
  - assert (NW : NoDup (on_wall b d s)) by (unfold on_wall; apply NoDup_filter, seq_NoDup).
    assert (G : forall l, NoDup l -> (forall v, In v l -> (v < nv)%nat) -> NoDup (map (corner c) l)).
    { induction l as [|x l IH]; intros Nl Hl; simpl; constructor; inversion Nl as [|? ? N1 N2]; subst.
      - intro H. apply in_map_iff in H. destruct H as [y [E Hy]]. apply (corner_inj m corner wall B) in E; [|exact Hc|apply Hl; right; exact Hy|apply Hl; left; reflexivity]. subst y. contradiction.
      - apply IH; [assumption|]. intros v Hv. apply Hl. right. exact Hv. }
    apply G; [exact NW|]. intros v Hv. apply in_on_wall in Hv. apply Hv.
  - rewrite map_length, on_wall_length by exact Hd. rewrite LN. fold dim. lia.
  - intros p Hp. apply in_map_iff in Hp. destruct Hp as [v [<- Hv]]. apply in_on_wall in Hv. destruct Hv as [Hv Hb]. unfold vertices_of. apply filter_In. split.
    + apply (bx_side _ _ _ B c d s v Hc Hd Hv). exact Hb.
    + apply (bx_corner _ _ _ B c v Hc Hv).
Qed.
Lemma wall_flux_face : forall c d s U, (c < p_cells m)%nat -> (d < dim)%nat ->
  wall_flux b c d s (at_cell b U c) = toward c (wall c d s) *
    sum_over (vertices_of m (wall c d s)) (fun p => U (Z.to_nat (first_unknown (b_start b (wall c d s)) + Z.of_nat (index_of p (vertices_of m (wall c d s)))))).
Proof.
  intros c d s U Hc Hd. rewrite <- (sum_permutation _ _ _ (wall_vertices c d s Hc Hd)), sum_map, <- sum_scale. unfold wall_flux. fold m dim. apply sum_ext.
  intros v Hv. apply in_on_wall in Hv. destruct Hv as [Hv Hb]. destruct (proj2 unknowns c Hc) as [_ H]. destruct (H v d Hv Hd) as [_ [S1 [i [Hi Ni]]]].
  unfold wall_of in *. rewrite Hb in *. rewrite S1. unfold at_cell. rewrite Ni.
  assert (ND : NoDup (vertices_of m (wall c d s))).
  { destruct (bx_wall _ _ _ B c d s Hc Hd) as [_ W2]. apply SF. unfold is_face in W2. apply andb_prop in W2. destruct W2 as [X Y]. apply Nat.leb_le in X. apply Nat.ltb_lt in Y. lia. }
  rewrite (index_nth _ _ _ ND Hi). reflexivity.
Qed.
Lemma toward_opposite : forall c d s c' d' s', two_sided b wall -> shared b wall c d s c' d' s' -> toward c (wall c d s) = - toward c' (wall c d s).
Proof.
  intros c d s c' d' s' T SH. pose proof (T _ _ _ _ _ _ SH) as X. unfold outward in X. fold m in X. fold dim in X. unfold toward.
  destruct (Rle_dec 0 _) as [P|P]; destruct (Rle_dec 0 _) as [Q|Q]; try lra; exfalso; tauto.
Qed.
Lemma between_proof : forall U c d s c' d' s', two_sided b wall -> shared b wall c d s c' d' s' ->
  wall_flux b c d s (at_cell b U c) = - wall_flux b c' d' s' (at_cell b U c').
Proof.
  intros U c d s c' d' s' T SH. destruct SH as [Hc [Hd [Hc' [Hd' [Hne E]]]]].
  rewrite (wall_flux_face c d s U Hc Hd), (wall_flux_face c' d' s' U Hc' Hd'), <- E, (toward_opposite c d s c' d' s' T ltac:(repeat split; assumption)). ring.
Qed.
End mesh.
