(** A column of [n] unit cubes, one above the other.  Vertex 4 k + 2 y + x has the
    coordinates (x, y, k); face 5 k is horizontal at height k, the faces 5 k + 1 .. 5 k + 4
    are the sides of cell k. *)
From Coq Require Import Reals List Bool Arith ZArith Lia Lra Permutation ZifyNat.
From Verif Require Import Prelude Arrays Geom Numbering SpecNumbering Traversal SpecTraversal TraversalProofs Levels SpecLevels LevelsProofs.
Import ListNotations.
Local Open Scope nat_scope.
Ltac Zify.zify_post_hook ::= Z.div_mod_to_equations.

Definition sv (v : nat) : v3 := V3 (INR (v mod 2)) (INR ((v / 2) mod 2)) (INR (v / 4)).
Definition sf (f : nat) : list nat :=
  let b := 4 * (f / 5) in
  match f mod 5 with
  | 0 => [b; b + 1; b + 3; b + 2]
  | 1 => [b; b + 2; b + 6; b + 4]
  | 2 => [b + 1; b + 3; b + 7; b + 5]
  | 3 => [b; b + 1; b + 5; b + 4]
  | _ => [b + 2; b + 3; b + 7; b + 6]
  end.
Definition stack (n : nat) : terrain := mkTerrain
  (mkShape (map sv (seq 0 (4 * n + 4))) (map (fun c => V3 (1 / 2) (1 / 2) (INR c + 1 / 2)) (seq 0 n)) []
    (map (fun c => seq (5 * c) 6) (seq 0 n)))
  (map (fun c => seq (4 * c) 8) (seq 0 n))
  (map sf (seq 0 (5 * n + 1)))
  (map (fun f => (f mod 5 =? 0) && (0 <? f) && (f <? 5 * n)) (seq 0 (5 * n + 1)))
  (map (fun v => (if 4 <=? v then [v / 4 - 1] else []) ++ (if v / 4 <? n then [v / 4] else [])) (seq 0 (4 * n + 4)))
  (repeat true (4 * n + 4)).

Lemma nth_table : forall {A} (g : nat -> A) n i x, nth_error (map g (seq 0 n)) i = Some x <-> i < n /\ x = g i.
Proof.
  intros A g n i x. split.
  - intro H. assert (L := nth_lt _ _ _ H). rewrite map_length, seq_length in L. split; [exact L|].
    rewrite (map_nth_error g _ _ (nth_error_nth' (seq 0 n) 0 ltac:(rewrite seq_length; exact L))) in H. rewrite seq_nth in H by exact L.
    simpl in H. congruence.
  - intros [L ->]. rewrite (map_nth_error g _ _ (nth_error_nth' (seq 0 n) 0 ltac:(rewrite seq_length; exact L))). rewrite seq_nth by exact L. reflexivity.
Qed.

Section stack.
Variable n : nat.
Notation t := (stack n).
Lemma st_corner : forall v c, corner_at t v c <-> c < n /\ 4 * c <= v < 4 * c + 8.
Proof.
  intros v c. unfold corner_at. cbn [t_cverts stack]. split.
  - intros [vs [E H]]. apply nth_table in E. destruct E as [L ->]. apply in_seq in H. lia.
  - intros [L H]. exists (seq (4 * c) 8). split; [apply nth_table; auto|apply in_seq; lia].
Qed.
Lemma sq_far : forall a b, a <> b -> (1 <= (INR a - INR b) ^ 2)%R.
Proof.
  intros a b H. assert (X : a < b \/ b < a) by lia. destruct X as [X|X]; apply le_INR in X; rewrite S_INR in X; nra.
Qed.
Lemma st_straight : forall v w, straight (t_h t) v w <-> v < 4 * n + 4 /\ w < 4 * n + 4 /\ v mod 4 = w mod 4.
Proof.
  intros v w. unfold straight. cbn [t_h h_vx stack]. split.
  - intros [x [y [Hx [Hy H]]]]. apply nth_table in Hx, Hy. destruct Hx as [Lv ->], Hy as [Lw ->]. split; [exact Lv|]. split; [exact Lw|].
    unfold sv in H. cbn [vx vy] in H.
    destruct (Nat.eq_dec (v mod 2) (w mod 2)) as [Ex|Ex].
    + destruct (Nat.eq_dec ((v / 2) mod 2) ((w / 2) mod 2)) as [Ey|Ey]; [lia|].
      apply sq_far in Ey. assert (P := pow2_ge_0 (INR (v mod 2) - INR (w mod 2))). lra.
    + apply sq_far in Ex. assert (P := pow2_ge_0 (INR ((v / 2) mod 2) - INR ((w / 2) mod 2))). lra.
  - intros [Lv [Lw E]]. exists (sv v), (sv w). split; [apply nth_table; auto|]. split; [apply nth_table; auto|].
    unfold sv. cbn [vx vy]. replace (v mod 2) with (w mod 2) by lia. replace ((v / 2) mod 2) with ((w / 2) mod 2) by lia. lra.
Qed.
Lemma st_higher : forall w v, higher t w v <-> v < 4 * n + 4 /\ w < 4 * n + 4 /\ v / 4 < w / 4.
Proof.
  intros w v. unfold higher. cbn [t_h h_vx stack]. split.
  - intros [y [x [Hy [Hx H]]]]. apply nth_table in Hx, Hy. destruct Hx as [Lv ->], Hy as [Lw ->]. split; [exact Lv|]. split; [exact Lw|].
    unfold sv in H. cbn [vz] in H. apply INR_lt in H. exact H.
  - intros [Lv [Lw H]]. exists (sv w), (sv v). split; [apply nth_table; auto|]. split; [apply nth_table; auto|]. unfold sv. cbn [vz]. apply lt_INR. exact H.
Qed.
Lemma st_post : forall v c w, corner_at t v c -> (post t v c w <-> (v < 4 * c + 4 /\ w = v + 4 \/ 4 * c + 4 <= v /\ w + 4 = v)).
Proof.
  intros v c w Hv. unfold post. rewrite st_straight, st_corner. apply st_corner in Hv. lia.
Qed.
Lemma st_lies : forall up v c, lies t up v c <-> c < n /\ (if up then 4 * c <= v < 4 * c + 4 else 4 * c + 4 <= v < 4 * c + 8).
Proof.
  intros up v c. unfold lies. split.
  - intros [Hv [w [P H]]]. apply st_post in P; [|exact Hv]. apply st_corner in Hv. destruct up; apply st_higher in H; lia.
  - intros H. assert (Hv : corner_at t v c) by (apply st_corner; destruct up; lia). split; [exact Hv|]. destruct up.
    + exists (v + 4). rewrite st_post by exact Hv. rewrite st_higher. lia.
    + exists (v - 4). rewrite st_post by exact Hv. rewrite st_higher. lia.
Qed.
Lemma st_side : forall v w f, side t v w f <-> f < 5 * n + 1 /\ In v (sf f) /\ In w (sf f).
Proof.
  intros v w f. unfold side. cbn [t_fverts stack]. split.
  - intros [vs [E H]]. apply nth_table in E. destruct E as [L ->]. auto.
  - intros [L H]. exists (sf f). split; [apply nth_table; auto|exact H].
Qed.
Lemma sf_at : forall c j, j < 5 -> sf (5 * c + j) = match j with
  | 0 => [4 * c; 4 * c + 1; 4 * c + 3; 4 * c + 2] | 1 => [4 * c; 4 * c + 2; 4 * c + 6; 4 * c + 4]
  | 2 => [4 * c + 1; 4 * c + 3; 4 * c + 7; 4 * c + 5] | 3 => [4 * c; 4 * c + 1; 4 * c + 5; 4 * c + 4]
  | _ => [4 * c + 2; 4 * c + 3; 4 * c + 7; 4 * c + 6] end.
Proof.
  intros c j H. unfold sf. replace ((5 * c + j) / 5) with c by lia. replace ((5 * c + j) mod 5) with j by lia. cbv zeta.
  destruct j as [|[|[|[|[|j]]]]]; try reflexivity; lia.
Qed.
(** Which two sides belong to a post. *)
Lemma st_sides : forall c i x, i < 4 -> In x (seq (5 * c) 6) ->
  (In (4 * c + i) (sf x) /\ In (4 * c + i + 4) (sf x) <->
   x = 5 * c + (if i mod 2 =? 0 then 1 else 2) \/ x = 5 * c + (if i / 2 =? 0 then 3 else 4)).
Proof.
  intros c i x Hi Hx. apply in_seq in Hx.
  assert (X : (exists j, j < 5 /\ x = 5 * c + j) \/ x = 5 * S c + 0).
  { destruct (Nat.eq_dec x (5 * c + 5)) as [->|H]; [right; lia|left]. exists (x - 5 * c). lia. }
  destruct X as [[j [Hj ->]]| ->].
  - rewrite (sf_at c j Hj). destruct j as [|[|[|[|[|j]]]]]; [..|lia]; destruct i as [|[|[|[|i]]]]; [..|lia| | | | |lia| | | | |lia| | | | |lia| | | | |lia];
      cbn -[Nat.add Nat.mul]; lia.
  - rewrite (sf_at (S c) 0) by lia. destruct i as [|[|[|[|i]]]]; [..|lia]; cbn -[Nat.add Nat.mul]; lia.
Qed.

Lemma st_level_short : forall up v l, level_of t up v l -> length l <= 1.
Proof.
  intros up v l [N H]. destruct l as [|a [|b l]]; simpl; try lia. exfalso.
  assert (A := proj1 (H a) ltac:(simpl; auto)). assert (B := proj1 (H b) ltac:(simpl; auto)). apply st_lies in A, B.
  apply NoDup_cons_iff in N. apply (proj1 N). left. destruct up; lia.
Qed.

Hypothesis Hn0 : 0 < n.
Lemma stack_columns : columns t.
Proof.
  constructor.
  - intros v cs E. cbn [t_vcells stack] in E. apply nth_table in E. destruct E as [L ->].
    destruct (Nat.leb_spec 4 v) as [H4|H4]; destruct (Nat.ltb_spec (v / 4) n) as [Hn|Hn]; cbn [app].
    + split; [constructor; [intros [E|[]]; lia|]; constructor; [intros []|constructor]|]. split; [discriminate|]. intro c. rewrite st_corner. cbn [In]. lia.
    + split; [constructor; [intros []|constructor]|]. split; [discriminate|]. intro c. rewrite st_corner. cbn [In]. lia.
    + split; [constructor; [intros []|constructor]|]. split; [discriminate|]. intro c. rewrite st_corner. cbn [In]. lia.
    + exfalso. lia.
  - intros v c H. apply st_corner in H. cbn [t_vcells t_h h_vx stack]. rewrite !map_length, !seq_length. lia.
  - cbn [t_local t_vcells stack]. rewrite repeat_length, map_length, seq_length. reflexivity.
  - intros v c Hv. assert (H := proj1 (st_corner v c) Hv). destruct (Nat.lt_ge_cases v (4 * c + 4)) as [X|X].
    + exists (v + 4). rewrite st_post by exact Hv. split; [lia|]. split; [|left; apply st_higher; lia].
      intros w' P. apply st_post in P; [lia|exact Hv].
    + exists (v - 4). rewrite st_post by exact Hv. split; [lia|]. split; [|right; apply st_higher; lia].
      intros w' P. apply st_post in P; [lia|exact Hv].
  - intros v c d w w' Hc Hd P P'. rewrite !st_higher. apply st_post in P; [|exact Hc]. apply st_post in P'; [|exact Hd]. apply st_corner in Hc, Hd. lia.
  - intros v c w Hv P. apply st_post in P; [|exact Hv]. apply st_corner in Hv.
    set (i := v mod 4). exists (seq (5 * c) 6), (5 * c + (if i mod 2 =? 0 then 1 else 2)), (5 * c + (if i / 2 =? 0 then 3 else 4)).
    split; [cbn [t_h h_cfaces stack]; apply nth_table; split; [lia|reflexivity]|]. split; [apply seq_NoDup|].
    split; [destruct (i mod 2 =? 0), (i / 2 =? 0); lia|]. intro x. rewrite st_side.
    assert (Q : In v (sf x) /\ In w (sf x) <-> In (4 * c + i) (sf x) /\ In (4 * c + i + 4) (sf x)).
    { destruct P as [[A B]|[A B]].
      - replace (4 * c + i) with v by lia. replace (v + 4) with w by lia. reflexivity.
      - replace (4 * c + i) with w by lia. replace (w + 4) with v by lia. tauto. }
    rewrite Q. split.
    + intros [Hx [_ S0]]. apply st_sides in S0; [exact S0|lia|exact Hx].
    + intro Hx. assert (I : In x (seq (5 * c) 6)) by (apply in_seq; destruct (i mod 2 =? 0), (i / 2 =? 0); lia).
      split; [exact I|]. apply in_seq in I. split; [lia|]. apply st_sides; [lia|apply in_seq; lia|exact Hx].
  - intros c fs f E Hf. cbn [t_h h_cfaces stack] in E. apply nth_table in E. destruct E as [L ->]. apply in_seq in Hf.
    cbn [t_fint t_fverts stack]. rewrite map_length, seq_length. split; [lia|]. exists (sf f). split; [apply nth_table; split; [lia|reflexivity]|].
    unfold sf. cbv zeta. destruct (f mod 5) as [|[|[|[|m]]]]; repeat constructor; simpl; lia.
  - intros up v w c d e Hc Hd He _ _. apply st_lies in Hc, Hd, He. left. destruct up; lia.
  - intros v a b Hv La Lb Ha Hb. assert (A := st_level_short _ _ _ La). assert (B := st_level_short _ _ _ Lb).
    destruct a; [congruence|]. destruct b; [congruence|]. simpl in *. lia.
Qed.
End stack.

(** With two or more cubes a vertex has at most one cell above and one below, and rows of
    two entries. *)
Lemma stack_max : forall n, 2 <= n -> 2 <= MaxNumberOfCellsSharingAVertex (stack n).
Proof.
  intros n Hn. unfold MaxNumberOfCellsSharingAVertex. apply fold_max_ge. left. apply in_map_iff. exists [0; 1]. split; [reflexivity|].
  apply (nth_error_In _ 4). cbn [t_vcells stack]. apply nth_table. split; [lia|]. change (4 <=? 4) with true. change (4 / 4) with 1.
  destruct (Nat.ltb_spec 1 n); [reflexivity|lia].
Qed.
Theorem stack_setup : forall n, 2 <= n -> exists x, SetupLevels (stack n) = Ok x /\
  forall v, v < 4 * n + 4 -> right_at (stack n) x v.
Proof.
  intros n Hn. destruct (setup_proof (stack n) (stack_columns n ltac:(lia))) as [x [E H]].
  - intros v up l _ Hl. assert (X := st_level_short n up v l Hl). assert (Y := stack_max n Hn). lia.
  - exists x. split; [exact E|]. intros v Hv. apply H. cbn [t_local stack]. rewrite (nth_error_nth' _ true) by (rewrite repeat_length; exact Hv).
    rewrite nth_repeat. reflexivity.
Qed.
Theorem stack_one : SetupLevels (stack 1) = UB.
Proof.
  apply (one_layer_proof (stack 1) 0 [0] true (stack_columns 1 ltac:(lia))).
  - reflexivity.
  - reflexivity.
  - intros u cu E. cbn [t_vcells stack] in E. apply nth_table in E. destruct E as [L ->].
    destruct (Nat.leb_spec 4 u); destruct (Nat.ltb_spec (u / 4) 1); cbn [app length]; lia.
  - intros c [<-|[]]. apply st_lies. lia.
Qed.
