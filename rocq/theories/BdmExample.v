(** The BDM system on two unit squares. *)
From Coq Require Import Reals List ZArith Bool Arith Lia Lra Permutation.
From Verif Require Import Prelude Arrays SpecFvtpf FvtpfSumProofs MpfaoProofs Hdiv SpecHdiv HdivProofs FeMap SpecFeMap FeMapProofs FeMapUnknownProofs FeMapExample.
From Verif Require Import Bdm SpecBdm SpecBdmMesh BdmProofs BdmLocalProofs BdmInverseProofs BdmGlobalProofs BdmMeshProofs BdmSolveProofs BdmPatchProofs BdmExactProofs BdmRunProofs.
Import ListNotations.
Local Open Scope R_scope.

(** ** Numbers of the unknowns *)
Section numbers.
Variables (b : problem) (corner : nat -> nat -> nat) (wall : nat -> nat -> bool -> nat).
Let m := b_mesh b.
Let dim := p_dim m.
Let nv := (2 ^ dim)%nat.
Hypothesis SU : set_up b corner wall.
Lemma wall_range : forall c d s, (c < p_cells m)%nat -> (d < dim)%nat ->
  is_face m (wall c d s) = true /\ NoDup (vertices_of m (wall c d s)) /\ length (vertices_of m (wall c d s)) = (2 ^ (dim - 1))%nat.
Proof.
  intros c d s Hc Hd. destruct (bx_wall _ _ _ (su_boxes _ _ _ SU) c d s Hc Hd) as [_ W2]. fold m in W2. split; [exact W2|]. apply (su_faces _ _ _ SU).
  unfold is_face in W2. apply andb_prop in W2. destruct W2 as [X Y]. apply Nat.leb_le in X. apply Nat.ltb_lt in Y. fold m. lia.
Qed.
Lemma range_proof : forall size, bounded b size -> in_range b size.
Proof.
  intros size BD c r Hc Hr. fold m dim nv in Hr. destruct (proj2 (unknowns b corner wall SU) c Hc) as [P H]. fold m dim nv in P, H.
  assert (Z0 : forall z, (0 <= first_unknown z)%Z) by (intro z; unfold first_unknown; lia).
  destruct (Nat.eq_dec r (dim * nv)) as [->|Hne].
  - rewrite P. pose proof (BD c (or_introl Hc)) as X. fold m in X. unfold size_of in X. pose proof (proj1 (su_ranges _ _ _ SU) c Hc) as Y. fold m in Y. rewrite Y in X. pose proof (Z0 (b_start b c)). lia.
  - pose proof (bx_dim _ _ _ (su_boxes _ _ _ SU)) as HD. fold m dim in HD. assert (P0 : (0 < dim)%nat) by lia.
    assert (V : (r / dim < nv)%nat) by (apply Nat.div_lt_upper_bound; lia). assert (D : (r mod dim < dim)%nat) by (apply Nat.mod_upper_bound; lia).
    destruct (H (r / dim)%nat (r mod dim)%nat V D) as [_ [_ [i [Hi E]]]]. replace (r / dim * dim + r mod dim)%nat with r in E by (rewrite (Nat.div_mod_eq r dim) at 1; lia).
    rewrite E. unfold wall_of in *. destruct (wall_range c (r mod dim) (Nat.testbit (r / dim) (r mod dim)) Hc D) as [F [_ LN]].
    assert (LT : (i < 2 ^ (dim - 1))%nat) by (rewrite <- LN; apply nth_error_Some; congruence).
    pose proof (BD _ (or_intror F)) as X. fold m in X. unfold size_of in X. rewrite F in X. fold dim in X. pose proof (Z0 (b_start b (wall c (r mod dim) (Nat.testbit (r / dim) (r mod dim))))). lia.
Qed.
Lemma numbers_proof : forall c d s i, (c < p_cells m)%nat -> (d < dim)%nat -> (i < 2 ^ (dim - 1))%nat ->
  exists r, (r < dim * nv + 1)%nat /\ number_of b c r = (first_unknown (b_start b (wall c d s)) + Z.of_nat i)%Z.
Proof.
  intros c d s i Hc Hd Hi. destruct (wall_range c d s Hc Hd) as [F [ND LN]].
  destruct (nth_error (vertices_of m (wall c d s)) i) as [p|] eqn:E; [|apply nth_error_None in E; lia].
  assert (I := nth_error_In _ _ E). apply (Permutation_in p (Permutation_sym (wall_vertices b corner wall SU c d s Hc Hd))) in I.
  apply in_map_iff in I. destruct I as [v [Ev Hv]]. apply (in_on_wall b) in Hv. destruct Hv as [Hv Hb]. destruct (proj2 (unknowns b corner wall SU) c Hc) as [_ H].
  destruct (H v d Hv Hd) as [_ [_ [i' [Hi' E']]]]. unfold wall_of in *. rewrite Hb in *. exists (v * dim + d)%nat. split; [fold m dim in Hv, Hd; fold nv in Hv; nia|].
  fold m dim in E'. rewrite E'. rewrite Ev in Hi'. fold m in Hi'. rewrite <- (index_nth _ _ _ ND Hi'), (index_nth _ _ _ ND E). reflexivity.
Qed.
End numbers.

(** ** Two squares; one process owns everything *)
Definition all_start (p : nat) : Z := match p with 0 => 0%Z | 1 => 1%Z | _ => (2 * (Z.of_nat p - 7))%Z end%nat.
Definition maps_of (m : plex) (start : nat -> Z) : list Z * list Z * list Z :=
  match BDMMaps m start with Ok (_, e, (l, o)) => (e, l, o) | _ => ([], [], []) end.
Definition sq_maps := maps_of squares all_start.
Definition sq_geometry (c : nat) (xi : list R) : list R * list R * R :=
  ([sq_X c 0 + nth 0 xi 0 / 2; sq_X c 1 + nth 1 xi 0 / 2], [1/2; 0; 0; 1/2], 1/4).
Definition sq_problem (lumped : bool) (g : option (list R -> R)) : problem :=
  mkProblem squares 4 (fst (fst sq_maps)) (snd (fst sq_maps)) (snd sq_maps) all_start
    (fun c => [sq_wall c 0 false; sq_wall c 0 true; sq_wall c 1 false; sq_wall c 1 true]) (fun f => if (f =? 9)%nat then 0%Z else 1%Z)
    sq_geometry (fun _ _ => 1/2) lumped None g (fun K => K).

Lemma all_ranges : own_ranges squares all_start.
Proof.
  split; [intros c Hc; cbn in Hc; cases c 2%nat; reflexivity|].
  assert (A : forall x, carries squares x -> (x = 0%nat /\ first_unknown (all_start x) = 0%Z /\ size_of squares x = 1%Z) \/ (x = 1%nat /\ first_unknown (all_start x) = 1%Z /\ size_of squares x = 1%Z)
     \/ ((8 <= x)%nat /\ first_unknown (all_start x) = (2 * (Z.of_nat x - 7))%Z /\ size_of squares x = 2%Z)).
  { intros x [Hx|Hx].
    - cbn in Hx. cases x 2%nat; [left|right; left]; repeat split; reflexivity.
    - right; right. assert (S2 : size_of squares x = 2%Z) by (unfold size_of; rewrite Hx; reflexivity).
      unfold is_face in Hx. apply andb_prop in Hx. destruct Hx as [Hx _]. apply Nat.leb_le in Hx. cbn in Hx.
      split; [exact Hx|]. split; [|exact S2]. destruct x as [|[|x]]; [lia|lia|]. unfold first_unknown, all_start. lia. }
  intros p q Hp Hq Hne. destruct (A p Hp) as [[P1 [P2 P3]]|[[P1 [P2 P3]]|[P1 [P2 P3]]]];
    destruct (A q Hq) as [[Q1 [Q2 Q3]]|[[Q1 [Q2 Q3]]|[Q1 [Q2 Q3]]]]; rewrite P2, P3, Q2, Q3; lia.
Qed.
Section squares.
Variables (lumped : bool) (g : option (list R -> R)).
Let b := sq_problem lumped g.
Lemma sq_set_up : set_up b sq_corner sq_wall.
Proof.
  constructor.
  - exact squares_boxes.
  - exact squares_faces.
  - cbn. lia.
  - exact all_ranges.
  - destruct (maps_proof squares sq_corner sq_wall squares_boxes squares_faces all_start ltac:(cbn; lia)) as [vm [em [L [W [E _]]]]].
    exists vm. cbn [b sq_problem b_mesh b_emap b_LtoG b_orient b_start]. unfold sq_maps, maps_of. rewrite E. reflexivity.
  - reflexivity.
  - intros c f Hc. cbn [b sq_problem b_cone]. split.
    + intros [<-|[<-|[<-|[<-|[]]]]]; [exists 0%nat, false|exists 0%nat, true|exists 1%nat, false|exists 1%nat, true]; (split; [cbn; lia|reflexivity]).
    + intros [d [s [Hd ->]]]. cbn in Hd. cases d 2%nat; destruct s; cbn [In]; tauto.
  - intros c Hc. cbn in Hc. cases c 2%nat; cbn; repeat constructor; cbn; intuition lia.
Qed.
Lemma sq_bounded : bounded b 16.
Proof.
  intros p [Hp|Hp].
  - cbn in Hp. cases p 2%nat; cbn; lia.
  - unfold size_of. cbn [b sq_problem b_mesh b_start] in *. rewrite Hp. unfold is_face in Hp. apply andb_prop in Hp. destruct Hp as [H1 H2]. apply Nat.leb_le in H1. apply Nat.ltb_lt in H2. cbn in H1, H2.
    do 8 (destruct p as [|p]; [exfalso; lia|]). cases p 7%nat; cbn; lia.
Qed.
Lemma sq_covered : covered b 16.
Proof.
  intros i Hi. assert (P : forall c, (c < 2)%nat -> number_of b c 8 = Z.of_nat c).
  { intros c Hc. pose proof (proj1 (proj2 (unknowns b _ _ sq_set_up) c Hc)) as X. etransitivity; [exact X|]. cases c 2%nat; reflexivity. }
  assert (F : forall c d s j, (c < 2)%nat -> (d < 2)%nat -> (j < 2)%nat -> (2 * (Z.of_nat (sq_wall c d s) - 7) + Z.of_nat j = Z.of_nat i)%Z ->
    exists c r, (c < 2)%nat /\ (r < 9)%nat /\ number_of b c r = Z.of_nat i).
  { intros c d s j Hc Hd Hj E. destruct (numbers_proof b _ _ sq_set_up c d s j Hc Hd Hj) as [r [Hr N]]. exists c, r. split; [exact Hc|]. split; [exact Hr|].
    rewrite N, <- E. f_equal. cases c 2%nat; cases d 2%nat; destruct s; reflexivity. }
  destruct (lt_dec i 2) as [H2|H2]; [exists i, 8%nat; split; [exact H2|]; split; [cbn; lia|apply P; exact H2]|].
  change (exists c r, (c < 2)%nat /\ (r < 9)%nat /\ number_of b c r = Z.of_nat i).
  do 2 (destruct i as [|i]; [exfalso; lia|]).
  do 14 (destruct i as [|i]; [first
    [apply (F 0 0 false 0)%nat; [lia|lia|lia|reflexivity]|apply (F 0 0 false 1)%nat; [lia|lia|lia|reflexivity]
    |apply (F 0 0 true 0)%nat; [lia|lia|lia|reflexivity]|apply (F 0 0 true 1)%nat; [lia|lia|lia|reflexivity]
    |apply (F 1 0 true 0)%nat; [lia|lia|lia|reflexivity]|apply (F 1 0 true 1)%nat; [lia|lia|lia|reflexivity]
    |apply (F 0 1 false 0)%nat; [lia|lia|lia|reflexivity]|apply (F 0 1 false 1)%nat; [lia|lia|lia|reflexivity]
    |apply (F 1 1 false 0)%nat; [lia|lia|lia|reflexivity]|apply (F 1 1 false 1)%nat; [lia|lia|lia|reflexivity]
    |apply (F 0 1 true 0)%nat; [lia|lia|lia|reflexivity]|apply (F 0 1 true 1)%nat; [lia|lia|lia|reflexivity]
    |apply (F 1 1 true 0)%nat; [lia|lia|lia|reflexivity]|apply (F 1 1 true 1)%nat; [lia|lia|lia|reflexivity]]|]).
  exfalso; lia.
Qed.
Lemma sq_out : forall c d s, (c < 2)%nat -> (d < 2)%nat -> forall k, (k < 2)%nat -> out_normal b c (sq_wall c d s) k = if (k =? d)%nat then (if s then 1 else -1) else 0.
Proof.
  intros c d s Hc Hd k Hk. unfold out_normal. cbn [b sq_problem b_mesh p_dim p_N p_X squares seq fold_right].
  cases c 2%nat; cases d 2%nat; destruct s; cases k 2%nat; cbv -[Rplus Rminus Ropp Rmult Rdiv Rinv IZR Rle_dec];
    match goal with |- context [Rle_dec ?x ?y] => destruct (Rle_dec x y) end; lra.
Qed.
Lemma sq_two_sided : two_sided b sq_wall.
Proof.
  intros c d s c' d' s' [Hc [Hd [Hc' [Hd' [Hne E]]]]]. cbn in Hc, Hd, Hc', Hd'.
  cases c 2%nat; cases d 2%nat; destruct s; cases c' 2%nat; cases d' 2%nat; destruct s'; cbn in E; try discriminate E; try (exfalso; apply Hne; reflexivity);
    unfold outward; cbv -[Rplus Rminus Ropp Rmult Rdiv Rinv IZR Rle]; split; lra.
Qed.
Lemma sq_shared : shared b sq_wall 0 0 true 1 0 false.
Proof. repeat split; cbn; lia. Qed.
Lemma sq_marked : boundary_marked b sq_wall.
Proof.
  intros c d s Hc Hd. cbn in Hc, Hd. cbn [b sq_problem b_marker].
  cases c 2%nat; cases d 2%nat; destruct s; cbn [sq_wall Nat.add Nat.b2n Nat.mul Nat.eqb Z.eqb];
    first [intros c' d' s' [_ [_ [Hc' [Hd' [Hne E]]]]]; cbn in Hc', Hd', E; cases c' 2%nat; try (apply Hne; reflexivity); cases d' 2%nat; destruct s'; discriminate E
          |exists 1%nat, 0%nat, false; split; [exact sq_shared|]; intros c2 d2 s2 [_ [_ [Hc2 [_ [Hne _]]]]]; cbn in Hc2; lia
          |exists 0%nat, 0%nat, true; split; [repeat split; cbn; lia|]; intros c2 d2 s2 [_ [_ [Hc2 [_ [Hne _]]]]]; cbn in Hc2; lia].
Qed.
Lemma sq_reaches : forall c, (c < 2)%nat -> reaches b sq_wall c.
Proof.
  intros c Hc. apply (at_boundary b sq_wall c 1%nat false); [exact Hc|cbn; lia|]. pose proof (sq_marked c 1%nat false Hc ltac:(cbn; lia)) as X.
  cases c 2%nat; exact X.
Qed.
Lemma sq_parallel : parallelepipeds b sq_corner sq_wall (fun _ => [1/2; 0; 0; 1/2]) (fun _ => 1/4) (fun _ => 1/2).
Proof.
  split; [reflexivity|]. intros c Hc. cbn in Hc. split; [reflexivity|]. split; [lra|]. split; [|split; [|split]].
  - exists [2; 0; 0; 2]. split; [reflexivity|]. intros i j Hi Hj. cbn in Hi, Hj. cases i 2%nat; cases j 2%nat; simpl; lra.
  - intros xi _. split; [reflexivity|]. split; [reflexivity|]. intros k Hk. cbn in Hk. cases k 2%nat; unfold times; simpl; lra.
  - intros v k Hv Hk. change (2 ^ p_dim (b_mesh b))%nat with 4%nat in Hv. cbn in Hk.
    cases c 2%nat; cases v 4%nat; cases k 2%nat; unfold times, side; cbv -[Rplus Rminus Ropp Rmult Rdiv Rinv IZR]; lra.
  - intros d s Hd. cbn in Hd. split.
    + intros k Hk. cbn in Hk. cases c 2%nat; cases d 2%nat; destruct s; cases k 2%nat; cbv -[Rplus Rminus Ropp Rmult Rdiv Rinv IZR]; lra.
    + intros i Hi. cbn in Hi. cbn [b sq_problem b_mesh p_dim squares total]. fold squares. rewrite !(sq_out c d s Hc Hd) by lia.
      cases d 2%nat; destruct s; cases i 2%nat; simpl; lra.
Qed.
Lemma sq_posed : forall k, k <> 0 -> well_posed b (repeat [k; 0; 0; k] 2) (fun _ => [/ k; 0; 0; / k]) (place_of b sq_wall).
Proof.
  intros k Hk. constructor.
  - exact (proj1 (setup_proof b _ _ sq_set_up)).
  - intros c Hc. cbn in Hc. cases c 2%nat; cbn; lia.
  - intros c Hc xi _. split; [reflexivity|]. cbn. lra.
  - reflexivity.
  - intros c Hc. cbn in Hc. split; [cases c 2%nat; reflexivity|]. intros i j Hi Hj. cbn in Hi, Hj. cases c 2%nat; cases i 2%nat; cases j 2%nat; reflexivity.
  - intros c Hc. cbn in Hc. split; [reflexivity|]. intros i j Hi Hj. cbn in Hi, Hj. cases c 2%nat; cases i 2%nat; cases j 2%nat; simpl; field; exact Hk.
  - exact (proj2 (setup_proof b _ _ sq_set_up)).
Qed.
Lemma sq_proper : forall c, (c < 2)%nat -> proper b c.
Proof. intros c Hc. exact (proper_cell b _ _ _ _ _ sq_parallel c Hc). Qed.
Lemma sq_positive : forall k, 0 < k -> positive 2 [k; 0; 0; k].
Proof.
  intros k Hk u [i [Hi Hu]]. unfold SpecBdm.dot, times. simpl.
  assert (forall x, 0 <= k * (x * x)) by (intro x; apply Rmult_le_pos; [lra|apply Rle_0_sqr]).
  assert (0 < k * (u i * u i)) by (apply Rmult_lt_0_compat; [exact Hk|apply Rlt_0_sqr; exact Hu]).
  pose proof (H (u 0%nat)). pose proof (H (u 1%nat)). cases i 2%nat; nra.
Qed.
End squares.

(** ** The second run *)
Definition slope (d : nat) (k : nat) : R := if (k =? d)%nat then 1 else 0.
Definition coordinate (d : nat) : option (list R -> R) := Some (fun x => nth d x 0).
Lemma sq_linear : forall lumped d x, (d < 2)%nat -> nth d x 0 = linear_function (sq_problem lumped (coordinate d)) 0 (slope d) (fun k => nth k x 0).
Proof. intros lumped d x Hd. unfold linear_function, SpecBdm.dot, slope. cases d 2%nat; simpl; lra. Qed.
Lemma twice_proof : let b := sq_problem false (coordinate 0) in
  exists s s' U U', ComputeSystem b (mkState (repeat [2; 0; 0; 2] 2) (fun _ _ => 0) (fun _ => 0)) = Ok s /\
    ComputeSystem b (mkState (s_K s) (fun _ _ => 0) (fun _ => 0)) = Ok s' /\ solves s 16 U /\ solves s' 16 U' /\ at_cell b U 0 0 = -1 /\ at_cell b U' 0 0 = -1/4.
Proof.
  intro b. set (SU := sq_set_up false (coordinate 0)). fold b in SU.
  pose proof (sq_posed false (coordinate 0) 2 ltac:(lra)) as WP. fold b in WP.
  pose proof (range_proof b _ _ SU 16 (sq_bounded false (coordinate 0))) as RG.
  assert (PB : exists gb, b_pressure b = Some gb /\ forall x, gb x = linear_function b 0 (slope 0) (fun k => nth k x 0)).
  { exists (fun x => nth 0 x 0). split; [reflexivity|]. intro x. apply (sq_linear false 0 x). lia. }
  assert (V : forall k U, is_exact b sq_wall (fun _ => 1/2) [k; 0; 0; k] 0 (slope 0) U -> at_cell b U 0 0 = - k / 2).
  { intros k U EX. destruct (EX 0%nat ltac:(cbn; lia)) as [_ X]. specialize (X 0%nat 0%nat ltac:(cbn; lia) ltac:(cbn; lia)). etransitivity; [exact X|]. cbn. unfold SpecBdm.dot, times, slope. simpl. lra. }
  destruct (linear_proof b _ _ SU (fun _ => 1/2) [2; 0; 0; 2] 0 (slope 0) (repeat [2; 0; 0; 2] 2) _ _ _ 16 WP
    ltac:(intros c Hc; cbn in Hc; cases c 2%nat; reflexivity) (sq_parallel false (coordinate 0)) (sq_two_sided false (coordinate 0)) (sq_marked false (coordinate 0)) eq_refl eq_refl PB RG
    (sq_positive 2 ltac:(lra)) (sq_reaches false (coordinate 0)) (sq_covered false (coordinate 0))) as [s [U [E [HS [HX _]]]]].
  destruct (tensors_proof b _ _ _ WP s E) as [L T].
  assert (T' : forall c, (c < 2)%nat -> nth c (s_K s) [] = [1/2; 0; 0; 1/2]).
  { intros c Hc. rewrite (T c Hc). repeat f_equal; lra. }
  assert (K' : s_K s = repeat [1/2; 0; 0; 1/2] 2).
  { apply (nth_ext _ _ [] []); [rewrite L; reflexivity|]. intros c Hc. rewrite L in Hc. cbn in Hc. rewrite (T' c Hc). cases c 2%nat; reflexivity. }
  pose proof (sq_posed false (coordinate 0) (1/2) ltac:(lra)) as WP'. fold b in WP'. rewrite <- K' in WP'.
  destruct (linear_proof b _ _ SU (fun _ => 1/2) [1/2; 0; 0; 1/2] 0 (slope 0) (s_K s) _ _ _ 16 WP'
    T' (sq_parallel false (coordinate 0)) (sq_two_sided false (coordinate 0)) (sq_marked false (coordinate 0)) eq_refl eq_refl PB RG
    (sq_positive (1/2) ltac:(lra)) (sq_reaches false (coordinate 0)) (sq_covered false (coordinate 0))) as [s' [U' [E' [HS' [HX' _]]]]].
  exists s, s', U, U'. split; [exact E|]. split; [exact E'|]. split; [exact HS|]. split; [exact HS'|]. split; [rewrite (V 2 U HX); lra|rewrite (V (1/2) U' HX'); lra].
Qed.

(** ** Lumped quadrature *)
Definition probe (j : nat) : R := if (j =? 2)%nat then 1 else 0.
Lemma lumped_proof : let b := sq_problem true (coordinate 1) in
  exists s, ComputeSystem b (mkState (repeat [1; 0; 0; 1] 2) (fun _ _ => 0) (fun _ => 0)) = Ok s /\
    forall U, is_exact b sq_wall (fun _ => 1/2) [1; 0; 0; 1] 0 (slope 1) U -> ~ solves s 16 U.
Proof.
  intro b. set (SU := sq_set_up true (coordinate 1)). fold b in SU.
  pose proof (sq_posed true (coordinate 1) 1 ltac:(lra)) as WP. fold b in WP.
  pose proof (range_proof b _ _ SU 16 (sq_bounded true (coordinate 1))) as RG.
  destruct (system_proof b _ _ _ WP 16 RG) as [s [E H]]. exists s. split; [exact E|]. intros U EX SO.
  apply (H (shapes b) (shapes_ok b sq_wall _ _ WP) U) in SO. specialize (SO probe).
  pose proof (residual b _ _ SU (sq_two_sided true (coordinate 1)) (sq_marked true (coordinate 1)) _ _ _ (sq_parallel true (coordinate 1)) [1; 0; 0; 1] (fun _ => [/ 1; 0; 0; / 1]) 0 (slope 1)
    ltac:(intros c Hc i j Hi Hj; cbn in Hi, Hj; cases i 2%nat; cases j 2%nat; simpl; lra) U EX probe eq_refl (fun x => nth 1 x 0) eq_refl (fun x => sq_linear true 1 x ltac:(lia))) as RE.
  apply Rminus_diag_eq in SO. apply (eq_trans (eq_sym SO)) in RE.
  assert (FS : forall th f, (8 <= f < 15)%nat -> face_sum b 0 (slope 1) probe th f = if (f =? 8)%nat then 1/2 - th / 2 else 0).
  { intros th f Hf. do 8 (destruct f as [|f]; [exfalso; lia|]).
    cases f 7%nat; unfold face_sum, pstar, linear_function, SpecBdm.dot, slope; cbv -[Rplus Rminus Ropp Rmult Rdiv Rinv IZR]; lra. }
  change (theta (b_lumped b)) with 0 in RE. cbn [b sq_problem b_mesh p_cells p_dim squares total both b_marker sq_wall Nat.add Nat.mul Nat.b2n Nat.eqb Z.eqb] in RE. unfold both in RE.
  cbn [b sq_problem b_mesh p_cells p_dim squares total both b_marker sq_wall Nat.add Nat.mul Nat.b2n Nat.eqb Z.eqb] in RE.
  fold squares in RE. change (mkProblem _ _ _ _ _ _ _ _ _ _ _ _ _ _) with b in RE.
  rewrite !FS in RE by lia. cbn [Nat.eqb] in RE.
  assert (T : toward b 0 8 = 1 \/ toward b 0 8 = -1) by (unfold toward; destruct (Rle_dec _ _); tauto).
  cbn [Pos.eqb] in RE. destruct T as [T|T]; rewrite T in RE; lra.
Qed.

(** ** A permeability that was never set *)
Lemma zero_proof : let b := sq_problem false (coordinate 0) in
  exists s, ComputeSystem b (mkState (repeat [0; 0; 0; 0] 2) (fun _ _ => 0) (fun _ => 0)) = Ok s.
Proof.
  intro b. apply (runs_proof b _ (place_of b sq_wall)).
  - exact (proj1 (setup_proof b _ _ (sq_set_up false (coordinate 0)))).
  - intros c Hc xi _. split; [reflexivity|]. cbn. lra.
  - reflexivity.
  - exact (proj2 (setup_proof b _ _ (sq_set_up false (coordinate 0)))).
  - intros c Hc. cbn in Hc. cases c 2%nat; reflexivity.
  - intros M H. exact H.
Qed.
