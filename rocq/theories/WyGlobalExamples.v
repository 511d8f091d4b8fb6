(** Two squares side by side, the right one nearly impermeable. *)
From Coq Require Import Reals List ZArith Arith Bool Lia Lra Permutation.
From Verif Require Import Prelude Arrays SpecFvtpf SpecHdiv FvtpfSumProofs MpfaoProofs Mpfao Wy SpecWy WyProofs WyGlobal SpecWyGlobal WyGlobalProofs.
Import ListNotations.
Local Open Scope R_scope.

(** Cells 0 and 1; vertices 2, 3, 4 at y = 0 and 5, 6, 7 at y = 2, from left to
    right; edges 8 and 9 at y = 0, 10 and 11 at y = 2, 12, 13, 14 at x = -2, 0, 2. *)
Ltac calc := cbv -[Rplus Ropp Rminus Rmult Rinv Rdiv IZR]; field; try lra.
Section Squares.
Variable e : R.
Hypothesis He : 0 < e.
Definition squares : mesh :=
  mkMesh 2 [mkElement [2; 3; 5; 6]%nat [12; 8; 13; 8; 12; 10; 13; 10]%Z (fun _ => [1; 0; 0; 1]);
            mkElement [3; 4; 6; 7]%nat [-13; 9; 14; 9; -13; 11; 14; 11]%Z (fun _ => [/ e; 0; 0; / e])] 8 15
    [4; 4; 0; 0; 0; 0; 0; 0; 2; 2; 2; 2; 2; 2; 2] (fun f => match f with 13%nat => None | _ => Some 1 end).
Definition around (v : nat) : list nat :=
  match v with
  | 2 => [2; 8; 12; 0] | 3 => [3; 8; 9; 13; 0; 1] | 4 => [4; 9; 14; 1]
  | 5 => [5; 10; 12; 0] | 6 => [6; 10; 11; 13; 0; 1] | _ => [7; 11; 14; 1]
  end%nat.
Definition corners_of : list nat := [2; 3; 4; 5; 6; 7]%nat.
Definition on_faces : list nat := [2; 3; 3; 4; 5; 6; 6; 7; 2; 5; 3; 6; 4; 7]%nat.
Definition faces_at (c : nat) : list nat := match c with O => [8; 13; 10; 12] | _ => [9; 14; 11; 13] end%nat.
Definition local (v c : nat) : nat :=
  match c, v with
  | O, 2 => 0 | O, 3 => 1 | O, 5 => 2 | O, _ => 3
  | _, 3 => 0 | _, 4 => 1 | _, 6 => 2 | _, _ => 3
  end%nat.
Definition point (c q d : nat) : Z :=
  nth (q * 2 + d) (match c with O => [12; 8; 13; 8; 12; 10; 13; 10] | _ => [-13; 9; 14; 9; -13; 11; 14; 11] end)%Z 0%Z.
Definition squares_star (v : nat) : star_data :=
  mkStar (local v) (fun c d => face (point c (local v c) d)) (fun c d => sign (point c (local v c) d)).
Definition squares_geometry : geometry :=
  mkGeometry [4; 4; 0; 0; 0; 0; 0; 0; 2; 2; 2; 2; 2; 2; 2]
    (fun f k => match f, k with
      | O, O => -1 | 1%nat, O => 1 | O, _ => 1 | 1%nat, _ => 1
      | 8%nat, O => -1 | 8%nat, _ => 0 | 9%nat, O => 1 | 9%nat, _ => 0
      | 10%nat, O => -1 | 10%nat, _ => 2 | 11%nat, O => 1 | 11%nat, _ => 2
      | 12%nat, O => -2 | 12%nat, _ => 1 | 13%nat, O => 0 | 13%nat, _ => 1 | _, O => 2 | _, _ => 1 end)
    (fun f k => match f, k with
      | 8%nat, O => 0 | 8%nat, _ => -1 | 9%nat, O => 0 | 9%nat, _ => -1
      | 10%nat, O => 0 | 10%nat, _ => 1 | 11%nat, O => 0 | 11%nat, _ => 1
      | 12%nat, O => -1 | 12%nat, _ => 0 | 13%nat, O => 1 | 13%nat, _ => 0 | _, O => 1 | _, _ => 0 end).
Definition perm (c : nat) : R := match c with O => 1 | _ => e end.
Definition h : R := e / (1 + e).
Definition mid (v : nat) : bool := (v =? 3)%nat || (v =? 6)%nat.
Definition side_perm (v : nat) : R := match v with 2%nat | 5%nat => 1 | _ => e end.
Definition Xs (v k j : nat) : R :=
  if mid v then match k, j with O, O => 1 | 1%nat, 1%nat => e | 2%nat, O => h | 2%nat, _ => - h | _, _ => 0 end else side_perm v.
Definition Ys (v k : nat) : R := if mid v then match k with O => 1 | 1%nat => e | _ => 0 end else side_perm v.
Definition sys (v : nat) : system := match vertex_system squares (around v) v with Ok s => s | _ => mkSystem (alloc 0 0) (alloc 0 0) [] end.
Definition rows (v : nat) : nat := length (faces_of squares (around v)).
Definition Cs (v i j : nat) : R := acc (fun k => m_el (sB (sys v)) k i * Xs v k j) (rows v).
Definition Ds (v i : nat) : R := acc (fun k => m_el (sB (sys v)) k i * Ys v k) (rows v).

Ltac each v H := simpl in H; repeat (destruct H as [<-|H]; [|]); [..|contradiction].
Lemma squares_good : forall v, In v corners_of -> good_star squares (around v) v (squares_star v).
Proof.
  intros v Hv. each v Hv; (constructor;
  [ simpl; repeat constructor; simpl; intuition discriminate
  | simpl; repeat constructor; simpl; intuition discriminate
  | intros c Hc; simpl in Hc; repeat (destruct Hc as [<-|Hc]; [|]); try contradiction; eexists; (split; [reflexivity|]);
      (split; [simpl; repeat constructor; simpl; intuition discriminate|]); (split; [reflexivity|]); (split; [reflexivity|]);
      intros [|[|d]] Hd; simpl in Hd; try lia; eexists; (split; [reflexivity|]); (split; [discriminate|]); split; reflexivity
  | intros c d Hc Hd; simpl in Hc, Hd; repeat (destruct Hc as [<-|Hc]; [|]); try contradiction; destruct d as [|[|d]]; try lia; (split; [simpl; tauto|]); eexists; (split; [reflexivity|lra])
  | intros f Hf; simpl in Hf; repeat (destruct Hf as [<-|Hf]; [|]); try contradiction;
      first [ exists O, O; simpl; repeat split; auto; lia | exists O, 1%nat; simpl; repeat split; auto; lia
            | exists 1%nat, O; simpl; repeat split; auto; lia | exists 1%nat, 1%nat; simpl; repeat split; auto; lia ]
  | reflexivity ]).
Qed.
Lemma squares_positive : forall c, symmetric 2 [perm c; 0; 0; perm c] /\ positive_definite 2 [perm c; 0; 0; perm c].
Proof.
  intros c. assert (Hp : 0 < perm c) by (destruct c; simpl; lra). split.
  - intros [|[|i]] [|[|j]] Hi Hj; try lia; reflexivity.
  - intros w [i [Hi Hw]].
    assert (Hs : 0 < w 0%nat * w 0%nat + w 1%nat * w 1%nat).
    { pose proof (Rle_0_sqr (w 0%nat)) as H0. pose proof (Rle_0_sqr (w 1%nat)) as H1. pose proof (Rlt_0_sqr _ Hw) as H2. unfold Rsqr in *.
      destruct i as [|[|i]]; [lra|lra|lia]. }
    unfold el_of. simpl. pose proof (Rmult_lt_0_compat _ _ Hp Hs). lra.
Qed.
Lemma squares_regular : forall v c, In v corners_of -> In c (cells_of squares (around v)) -> exists DFinv K J, regular_element squares (squares_star v) c DFinv K J.
Proof.
  intros v c Hv Hc. exists [1; 0; 0; 1], [perm c; 0; 0; perm c], 1.
  assert (Hc' : c = O \/ c = 1%nat).
  { pose proof (cells_range _ _ _ Hc) as H. simpl in H. lia. }
  constructor.
  - split; reflexivity.
  - exists [1; 0; 0; 1]. split; intros [|[|i]] [|[|j]] Hi Hj; simpl in Hi, Hj; try lia; cbv -[Rplus Ropp Rminus Rmult Rinv Rdiv IZR Rlt Rle]; ring.
  - lra.
  - apply squares_positive.
  - intros el E. destruct Hc' as [->| ->]; simpl in E; injection E as <-; simpl; (split; [reflexivity|]); split;
      intros [|[|i]] [|[|j]] Hi Hj; try lia; cbv -[Rplus Ropp Rminus Rmult Rinv Rdiv IZR Rlt Rle]; field; lra.
Qed.
Lemma squares_faces : forall v f, In v corners_of -> In f (faces_of squares (around v)) ->
  inner_face squares (around v) (squares_star v) f \/ outer_face squares (around v) (squares_star v) f 1.
Proof.
  intros v f Hv Hf. each v Hv; simpl in Hf; repeat (destruct Hf as [<-|Hf]; [|]); try contradiction;
  first
  [ left; split; [reflexivity|]; cbv -[Rplus Ropp Rminus Rmult Rinv Rdiv IZR Rlt Rle]; ring
  | right; split; [reflexivity|];
    first [ exists O, O; split; [simpl; tauto|]; split; [reflexivity|]; intros c' d' H E; simpl in H; repeat (destruct H as [H|H]; [injection H as <- <-; cbv in E; try discriminate E; auto|]); contradiction
          | exists O, 1%nat; split; [simpl; tauto|]; split; [reflexivity|]; intros c' d' H E; simpl in H; repeat (destruct H as [H|H]; [injection H as <- <-; cbv in E; try discriminate E; auto|]); contradiction
          | exists 1%nat, O; split; [simpl; tauto|]; split; [reflexivity|]; intros c' d' H E; simpl in H; repeat (destruct H as [H|H]; [injection H as <- <-; cbv in E; try discriminate E; auto|]); contradiction
          | exists 1%nat, 1%nat; split; [simpl; tauto|]; split; [reflexivity|]; intros c' d' H E; simpl in H; repeat (destruct H as [H|H]; [injection H as <- <-; cbv in E; try discriminate E; auto|]); contradiction ] ].
Qed.
Lemma squares_whole : whole_mesh squares squares_geometry 2 on_faces around corners_of squares_star.
Proof.
  constructor.
  - split; [reflexivity|simpl; lia].
  - split; [reflexivity|simpl; lia].
  - reflexivity.
  - unfold corners_of. repeat constructor; simpl; intuition discriminate.
  - exact squares_good.
  - exact squares_regular.
  - intros v f Hv Hf. destruct (squares_faces v f Hv Hf) as [H|H]; [left; exact H|right; exists 1; exact H].
  - intros f Hf. simpl in Hf. do 15 (destruct f as [|f]; [try lia; cbn; repeat constructor; simpl; intuition discriminate|]). lia.
Qed.
Lemma squares_cell : forall c el, nth_error (elements squares) c = Some el ->
  whole_cell squares squares_geometry 2 on_faces around corners_of squares_star faces_at c el.
Proof.
  intros c el E. destruct c as [|[|c]]; [| |destruct c; discriminate E]; simpl in E; injection E as <-.
  - constructor.
    + split; [reflexivity|]. simpl. repeat constructor; simpl; intuition discriminate.
    + intros v Hv. each v Hv; simpl; auto 10.
    + change (Permutation [(12, 2); (8, 2); (13, 3); (8, 3); (12, 5); (10, 5); (13, 6); (10, 6)]%nat [(8, 2); (8, 3); (13, 3); (13, 6); (10, 5); (10, 6); (12, 2); (12, 5)]%nat).
      apply NoDup_Permutation; [repeat constructor; simpl; intuition congruence|repeat constructor; simpl; intuition congruence|]. intros x. simpl. tauto.
    + intros f Hf. each f Hf; simpl; lia.
    + intros v d Hv Hd. simpl in Hd. each v Hv; destruct d as [|[|d]]; try lia; left; (split; [|reflexivity]); unfold away; simpl; lra.
  - constructor.
    + split; [reflexivity|]. simpl. repeat constructor; simpl; intuition discriminate.
    + intros v Hv. each v Hv; simpl; auto 10.
    + change (Permutation [(13, 3); (9, 3); (14, 4); (9, 4); (13, 6); (11, 6); (14, 7); (11, 7)]%nat [(9, 3); (9, 4); (14, 4); (14, 7); (11, 6); (11, 7); (13, 3); (13, 6)]%nat).
      apply NoDup_Permutation; [repeat constructor; simpl; intuition congruence|repeat constructor; simpl; intuition congruence|]. intros x. simpl. tauto.
    + intros f Hf. each f Hf; simpl; lia.
    + intros v d Hv Hd. simpl in Hd. each v Hv; destruct d as [|[|d]]; try lia;
      first [left; (split; [|reflexivity]); unfold away; simpl; lra | right; (split; [|reflexivity]); unfold towards; simpl; lra].
Qed.

Lemma squares_stencils : stencils squares around corners_of Cs Ds.
Proof.
  intros v Hv.
  destruct (system_ok squares (around v) v (squares_star v) (squares_good v Hv)) as [s [E _]].
  exists s, (Xs v), (Ys v). split; [exact E|].
  assert (Es : s = sys v) by (unfold sys; rewrite E; reflexivity).
  split; [|split; [|split; intros; unfold Cs, Ds; rewrite <- Es; reflexivity]]; rewrite Es; clear E Es; each v Hv.
  1-6: intros [|[|j]] Hj; simpl in Hj; try lia; intros [|[|[|i]]] Hi; simpl in Hi; try lia; calc.
  all: intros [|[|[|i]]] Hi; simpl in Hi; try lia; calc.
Qed.
(** Velocities for pressures [a] and [b] in the cells. *)
Definition Zs (a b : R) (v k : nat) : R :=
  if mid v then match k with O => a - 1 | 1%nat => e * (b - 1) | _ => h * (a - b) end
  else side_perm v * ((match v with 2%nat | 5%nat => a | _ => b end) - 1).
Lemma squares_solved : forall a b, solved squares [a; b] around corners_of (Zs a b).
Proof.
  intros a b v Hv A F E. each v Hv; cbv -[Rplus Ropp Rminus Rmult Rinv Rdiv IZR pow lt] in E; injection E as <- <-;
  intros [|[|[|i]]] Hi; simpl in Hi; try lia; calc.
Qed.
Lemma C_mid : forall v, v = 3%nat \/ v = 6%nat -> Cs v 0 0 = 1 + h /\ Cs v 1 0 = - h /\ Cs v 1 1 = e + h.
Proof. intros v [->| ->]; (split; [|split]); calc. Qed.
Hypothesis Hs : e <= / 2 ^ 60.
Lemma h_small : 0 < h /\ h < e.
Proof.
  unfold h. assert (0 < / (1 + e)) by (apply Rinv_0_lt_compat; lra). split; [apply Rmult_lt_0_compat; assumption|].
  rewrite <- (Rmult_1_r e) at 3. apply Rmult_lt_compat_l; [exact He|]. rewrite <- Rinv_1. apply Rinv_lt_contravar; lra.
Qed.
Lemma e_small : 2 * e < tol.
Proof.
  unfold tol. replace (/ 2 ^ 52) with (256 * / 2 ^ 60) by (simpl; field). assert (0 < / 2 ^ 60) by (apply Rinv_0_lt_compat; apply pow_lt; lra). lra.
Qed.
Lemma tol_lt_1 : tol < 1.
Proof. unfold tol. simpl. lra. Qed.
Lemma skipped_mid : forall v j, v = 3%nat \/ v = 6%nat -> (j < 2)%nat -> skipped 2 (Cs v) 1 j = true.
Proof.
  intros v j Hv Hj. unfold skipped. destruct (C_mid v Hv) as [H0 [H1 H2]]. destruct h_small as [Ha Hb]. pose proof e_small as Hc.
  pose proof (maxC_ge 2 (Cs v) 0 0 ltac:(lia) ltac:(lia)) as Hm. rewrite H0, Rabs_right in Hm by lra.
  assert (Ht : tol <= tol * maxC 2 (Cs v)).
  { rewrite <- (Rmult_1_r tol) at 1. apply Rmult_le_compat_l; [left; apply tol_pos|lra]. }
  destruct (Rlt_dec _ _) as [H|H]; [reflexivity|]. exfalso. apply H. destruct j as [|[|j]]; [| |lia].
  - rewrite H1, Rabs_Ropp, Rabs_right by lra. lra.
  - rewrite H2, Rabs_right by lra. lra.
Qed.
Lemma kept_corner : forall C, skipped 1 C 0 0 = false.
Proof.
  intros C. unfold skipped. destruct (Rlt_dec _ _) as [H|H]; [|reflexivity]. exfalso.
  pose proof (Rabs_pos (C 0%nat 0%nat)) as Hp. pose proof tol_lt_1. pose proof tol_pos.
  destruct (maxC_in 1 C) as [E|[i [j [Hi [Hj E]]]]]; rewrite E in H; [lra|].
  replace i with O in H by lia. replace j with O in H by lia.
  pose proof (Rmult_le_compat_r _ tol 1 Hp ltac:(lra)). lra.
Qed.
Lemma squares_dropped : rsum (at_vertex squares around 1 (dropped squares around [1; 1] Cs)) [3; 4; 6; 7]%nat = 2 * e.
Proof.
  unfold rsum, at_vertex, dropped. cbn [fold_right around].
  change (cells_of squares [3; 8; 9; 13; 0; 1]%nat) with [0; 1]%nat. change (cells_of squares [6; 10; 11; 13; 0; 1]%nat) with [0; 1]%nat.
  change (cells_of squares [4; 9; 14; 1]%nat) with [1]%nat. change (cells_of squares [7; 11; 14; 1]%nat) with [1]%nat.
  cbn [index_of Nat.eqb length total nth].
  rewrite !(skipped_mid 3) by auto. try rewrite !(skipped_mid 6) by auto. rewrite !kept_corner.
  destruct (C_mid 3 (or_introl eq_refl)) as [_ [-> ->]]. destruct (C_mid 6 (or_intror eq_refl)) as [_ [-> ->]]. ring.
Qed.
End Squares.

Lemma balance_refuted : exists m g nv fmap star vs st gid p P C D force Z vel0 K F vel cone c el,
  whole_mesh m g nv fmap star vs st /\ numbered m gid /\ local_copy m gid p P /\ stencils m star vs C D /\ solved m P star vs Z
  /\ length vel0 = (nv * (fEnd m - fStart m))%nat
  /\ compute_system m gid star vs C D force = Ok (K, F) /\ recover m nv fmap P star vs Z vel0 = Ok vel
  /\ whole_cell m g nv fmap star vs st cone c el /\ owned gid c
  /\ (forall i, p i = 1) /\ (forall f, bc m f = None \/ bc m f = Some 1) /\ (forall c, force c = 0)
  /\ divergence (dim m) g (fStart m) nv vel c (cone c) = Ok 0
  /\ row_times K (gid c) p - value F (gid c) <> 0.
Proof.
  pose (e := / 2 ^ 60). assert (He : 0 < e) by (apply Rinv_0_lt_compat; apply pow_lt; lra).
  assert (HN : numbered (squares e) Z.of_nat).
  { intros c c' Hc Hc' E. unfold number in E. destruct (Z.ltb_spec (Z.of_nat c) 0); [lia|]. destruct (Z.ltb_spec (Z.of_nat c') 0); [lia|]. lia. }
  assert (HP : local_copy (squares e) Z.of_nat (fun _ => 1) [1; 1]).
  { split; [reflexivity|]. intros c Hc. simpl in Hc. destruct c as [|[|c]]; [reflexivity|reflexivity|lia]. }
  destruct (recover_ok (squares e) squares_geometry 2 on_faces around corners_of squares_star (squares_whole e He) Z.of_nat (fun _ => 1) [1; 1] HP (Zs e 1 1) (repeat 0 14) eq_refl) as [vel [Er [Lr Hr]]].
  pose proof (squares_cell e 1 _ eq_refl) as HC.
  destruct (balance_exact (squares e) squares_geometry 2 on_faces around corners_of squares_star faces_at (squares_whole e He) Z.of_nat (fun _ => 1) [1; 1] HN HP (Cs e) (Ds e) (fun _ => 0)
    (squares_stencils e He) (Zs e 1 1) (squares_solved e He 1 1) 1 _ ltac:(unfold owned; lia) HC vel Lr Hr) as [E1 E2].
  assert (E0 : rsum (fun f => outward (dim (squares e)) squares_geometry 1 f * face_flow squares_geometry (fStart (squares e)) 2 vel f) (faces_at 1) = 0).
  { apply rsum_none. intros f Hf. unfold face_flow. rewrite total_none; [unfold Rdiv; ring|]. intros j Hj.
    assert (Z0 : forall v k, Zs e 1 1 v k = 0).
    { intros v k. unfold Zs. destruct (mid v); [destruct k as [|[|k]]; ring|]. do 6 (destruct v as [|v]; [ring|]). ring. }
    etransitivity; [refine (Hr f j _ Hj _ _)|apply Z0].
    - apply (wc_range _ _ _ _ _ _ _ _ _ _ HC f Hf).
    - simpl in Hf. destruct j as [|[|j]]; [| |lia]; repeat (destruct Hf as [<-|Hf]; [simpl; auto 10|]); contradiction.
    - simpl in Hf. destruct j as [|[|j]]; [| |lia]; repeat (destruct Hf as [<-|Hf]; [cbv; auto 10|]); contradiction. }
  rewrite E0 in E1, E2.
  exists (squares e), squares_geometry, 2%nat, on_faces, around, corners_of, squares_star, Z.of_nat, (fun _ => 1), [1; 1], (Cs e), (Ds e), (fun _ => 0), (Zs e 1 1), (repeat 0 14),
    (all_mat (squares e) around corners_of Z.of_nat (Cs e)), (all_vec (squares e) around corners_of Z.of_nat (Ds e) (fun _ => 0)), vel, faces_at, 1%nat.
  eexists. split; [exact (squares_whole e He)|]. split; [exact HN|]. split; [exact HP|]. split; [exact (squares_stencils e He)|]. split; [exact (squares_solved e He 1 1)|].
  split; [reflexivity|]. split; [apply system_calls; exact (squares_stencils e He)|]. split; [exact Er|]. split; [exact HC|]. split; [unfold owned; lia|].
  split; [reflexivity|]. split; [|split; [reflexivity|split; [exact E1|]]].
  - intros f. cbn [bc squares]. destruct (Nat.eq_dec f 13) as [->|Hne]; [left; reflexivity|right].
    do 15 (destruct f as [|f]; [try reflexivity; exfalso; apply Hne; reflexivity|]). reflexivity.
  - rewrite E2. change (vmap _) with [3; 4; 6; 7]%nat. rewrite (squares_dropped e He (Rle_refl _)). lra.
Qed.

(** Both squares have permeability 1. *)
Lemma squares_significant : significant (squares 1) around corners_of (Cs 1).
Proof.
  assert (B : forall v i j, In v corners_of -> (i < length (cells_of (squares 1) (around v)))%nat -> (j < length (cells_of (squares 1) (around v)))%nat ->
    1 / 2 <= Rabs (Cs 1 v i j) <= 2).
  { assert (Q : forall x, x = 3 / 2 \/ x = - (1 / 2) \/ x = 2 -> 1 / 2 <= Rabs x <= 2).
    { intros x Hx. unfold Rabs. destruct (Rcase_abs x); lra. }
    intros v i j Hv Hi Hj. apply Q. unfold corners_of in Hv. simpl in Hv; repeat (destruct Hv as [<-|Hv]; [|]); [..|contradiction];
    simpl in Hi, Hj; destruct i as [|[|i]]; try lia; destruct j as [|[|j]]; try lia;
    first [left; calc|right; left; calc|right; right; calc]. }
  intros v i j i' j' Hv Hi Hj Hi' Hj'. right. pose proof (B v i j Hv Hi Hj). pose proof (B v i' j' Hv Hi' Hj').
  assert (10000 * / 2 ^ 52 <= 1 / 4) by (simpl; lra). pose proof tol_pos as Ht. unfold tol in Ht.
  assert (10000 * / 2 ^ 52 * Rabs (Cs 1 v i' j') <= 1 / 4 * 2) by (apply Rmult_le_compat; lra). lra.
Qed.
Lemma squares_flow : exists K F vel, compute_system (squares 1) Z.of_nat around corners_of (Cs 1) (Ds 1) (fun _ => 0) = Ok (K, F)
  /\ recover (squares 1) 2 on_faces [3; 1] around corners_of (Zs 1 3 1) (repeat 0 14) = Ok vel
  /\ row_times K 0 (fun i => if (i =? 0)%Z then 3 else 1) - value F 0 = 14.
Proof.
  assert (H1 : 0 < 1) by lra.
  assert (HN : numbered (squares 1) Z.of_nat).
  { intros c c' Hc Hc' E. unfold number in E. destruct (Z.ltb_spec (Z.of_nat c) 0); [lia|]. destruct (Z.ltb_spec (Z.of_nat c') 0); [lia|]. lia. }
  assert (HP : local_copy (squares 1) Z.of_nat (fun i => if (i =? 0)%Z then 3 else 1) [3; 1]).
  { split; [reflexivity|]. intros c Hc. simpl in Hc. destruct c as [|[|c]]; [reflexivity|reflexivity|lia]. }
  destruct (recover_ok (squares 1) squares_geometry 2 on_faces around corners_of squares_star (squares_whole 1 H1) Z.of_nat _ [3; 1] HP (Zs 1 3 1) (repeat 0 14) eq_refl) as [vel [Er [Lr Hr]]].
  pose proof (squares_cell 1 0 _ eq_refl) as HC.
  destruct (balance_exact (squares 1) squares_geometry 2 on_faces around corners_of squares_star faces_at (squares_whole 1 H1) Z.of_nat _ [3; 1] HN HP (Cs 1) (Ds 1) (fun _ => 0)
    (squares_stencils 1 H1) (Zs 1 3 1) (squares_solved 1 H1 3 1) 0 _ ltac:(unfold owned; lia) HC vel Lr Hr) as [_ E2].
  exists (all_mat (squares 1) around corners_of Z.of_nat (Cs 1)), (all_vec (squares 1) around corners_of Z.of_nat (Ds 1) (fun _ => 0)), vel.
  split; [apply system_calls; exact (squares_stencils 1 H1)|]. split; [exact Er|].
  change (Z.of_nat 0) with 0%Z in E2. rewrite E2.
  rewrite (dropped_none (squares 1) squares_geometry 2 on_faces around corners_of squares_star faces_at [3; 1] (Cs 1) 0 _ HC squares_significant).
  assert (G : forall f j x, faces_in_range (squares 1) f -> (j < 2)%nat -> In (nth (place (squares 1) 2 f j) on_faces O) corners_of ->
    In f (faces_of (squares 1) (around (nth (place (squares 1) 2 f j) on_faces O))) ->
    Zs 1 3 1 (nth (place (squares 1) 2 f j) on_faces O) (slot (squares 1) around (nth (place (squares 1) 2 f j) on_faces O) f) = x -> nth (place (squares 1) 2 f j) vel 0 = x).
  { intros f j x A B C D E. rewrite <- E. apply Hr; assumption. }
  assert (V8 : forall j, (j < 2)%nat -> nth (place (squares 1) 2 8 j) vel 0 = 2) by (intros [|[|j]] Hj; [| |lia]; apply G; [unfold faces_in_range; simpl; lia|lia|simpl; auto 10|cbv; auto 10|calc|unfold faces_in_range; simpl; lia|lia|simpl; auto 10|cbv; auto 10|calc]).
  assert (V10 : forall j, (j < 2)%nat -> nth (place (squares 1) 2 10 j) vel 0 = 2) by (intros [|[|j]] Hj; [| |lia]; apply G; [unfold faces_in_range; simpl; lia|lia|simpl; auto 10|cbv; auto 10|calc|unfold faces_in_range; simpl; lia|lia|simpl; auto 10|cbv; auto 10|calc]).
  assert (V12 : forall j, (j < 2)%nat -> nth (place (squares 1) 2 12 j) vel 0 = 2) by (intros [|[|j]] Hj; [| |lia]; apply G; [unfold faces_in_range; simpl; lia|lia|simpl; auto 10|cbv; auto 10|calc|unfold faces_in_range; simpl; lia|lia|simpl; auto 10|cbv; auto 10|calc]).
  assert (V13 : forall j, (j < 2)%nat -> nth (place (squares 1) 2 13 j) vel 0 = 1) by (intros [|[|j]] Hj; [| |lia]; apply G; [unfold faces_in_range; simpl; lia|lia|simpl; auto 10|cbv; auto 10|calc|unfold faces_in_range; simpl; lia|lia|simpl; auto 10|cbv; auto 10|calc]).
  unfold rsum, face_flow, place in *. cbn [faces_at fold_right total]. cbn [fStart squares] in *.
  rewrite (V8 0%nat), (V8 1%nat), (V10 0%nat), (V10 1%nat), (V12 0%nat), (V12 1%nat), (V13 0%nat), (V13 1%nat) by lia.
  rewrite !sign_away by (unfold away; simpl; lra). cbn [squares_geometry g_V nth INR]. field.
Qed.
