(** The vertex of [NumberingExample] with coordinates: two unit cubes side by side, the
    vertex in the middle of the lower front edge. *)
From Coq Require Import Reals List Bool Arith ZArith Lia Lra Permutation.
From Verif Require Import Prelude Arrays Geom Mpfao SpecMpfao SpecSubcell Numbering SpecNumbering NumberingProofs NumberingExample
  Traversal SpecTraversal TraversalOrderProofs TraversalProofs TraversalMainProofs.
Import ListNotations.
Local Open Scope nat_scope.

(** [s] tilts the columns: the upper vertices are moved by [s] in the direction of x. *)
Definition tx (s : R) : shape := mkShape
  [V3 (0 + s) 1 1; V3 (1 + s) 0 1; V3 (1 + s) 1 1; V3 1 1 0; V3 0 0 0; V3 (0 + s) 0 1; V3 (2 + s) 0 1; V3 1 0 0; V3 2 0 0;
   V3 2 1 0; V3 0 1 0; V3 (2 + s) 1 1]%R
  [V3 (1 / 2 + s / 2) (1 / 2) (1 / 2); V3 (3 / 2 + s / 2) (1 / 2) (1 / 2)]%R
  [V3 (1 + s / 2) (1 / 2) (1 / 2); V3 (1 / 2 + s / 2) 0 (1 / 2); V3 (3 / 2 + s / 2) 0 (1 / 2); V3 (1 / 2) (1 / 2) 0;
   V3 (3 / 2) (1 / 2) 0]%R
  [[0; 1; 3; 5; 6; 7]; [0; 2; 4; 8; 9; 10]].

Ltac lts := repeat match goal with |- context [Rlt_dec ?a ?b] => destruct (Rlt_dec a b); [try (exfalso; lra)|try (exfalso; lra)] end.

Lemma straight_is : forall s a b x y, nth_error (h_vx (tx s)) a = Some x -> nth_error (h_vx (tx s)) b = Some y ->
  straight (tx s) a b -> ((vx x - vx y) ^ 2 + (vy x - vy y) ^ 2 < 1 / 10 ^ 14)%R.
Proof. intros s a b x y Ha Hb [x' [y' [Ha' [Hb' H]]]]. rewrite Ha in Ha'. rewrite Hb in Hb'. injection Ha' as <-. injection Hb' as <-. exact H. Qed.

Lemma tx_upright : forall f, In f (k_faces nx) -> (upright (tx 0) nx f <-> f < 3).
Proof.
  assert (P : (1 / 10 ^ 14 < 1)%R) by lra. assert (Q : (0 < 1 / 10 ^ 14)%R) by lra.
  intros f Hf. split.
  - intros [vs [v [E [Hv [Hne Hs]]]]]. cases Hf; try lia; exfalso; injection E as <-;
      cases Hv; try (apply Hne; reflexivity);
      (eapply straight_is in Hs; [|reflexivity|reflexivity]; cbn [vx vy] in Hs; lra).
  - intro H. cases Hf; try lia; (eexists; exists 1; split; [reflexivity|]; split; [simpl; auto|]; split; [discriminate|];
      eexists; eexists; split; [reflexivity|]; split; [reflexivity|]; simpl vx; simpl vy; lra).
Qed.
Lemma tx_layered : layered (tx 0) nx [0; 1] [].
Proof.
  constructor.
  - reflexivity.
  - assert (U : forall f, In f [0; 1; 2; 3; 4] -> (upright (tx 0) nx f <-> f < 3)) by exact tx_upright.
    intros c Hc. cases Hc.
    + exists 0, 1, 3. split; [lia|]. rewrite !U by (simpl; auto 8). split; [lia|]. split; [lia|]. split; [lia|].
      intro f. rewrite nx_touch. split; [lia|]. intro H. split; [simpl|]; lia.
    + exists 0, 2, 4. split; [lia|]. rewrite !U by (simpl; auto 8). split; [lia|]. split; [lia|]. split; [lia|].
      intro f. rewrite nx_touch. split; [lia|]. intro H. split; [simpl|]; lia.
  - intros f c d Hf _ Hc Hd _. apply nx_touch in Hc, Hd. simpl. lia.
  - intros f c d Hf Hu Hcd Hc Hd. exfalso. apply Hu. apply tx_upright; [exact Hf|]. apply nx_touch in Hc, Hd. lia.
  - intros f c _ _ _ _ H. congruence.
  - intros a a' b b' _ _ [].
  - intros c d Hc Hd Hcd. cases Hc; cases Hd; try congruence; split; intros _;
      first [exists 0; split; [|split]; [simpl; auto|apply nx_touch; lia|apply nx_touch; lia]
            |exists 0; simpl; auto].
  - intros c Hc. cases Hc; simpl; lia.
  - intros f Hf. cases Hf; simpl; lia.
  - intros f vs v Hf E Hv. cases Hf; injection E as <-; cases Hv; simpl; lia.
Qed.
Lemma tx_row : in_a_row nx [0; 1] /\ in_a_row nx [].
Proof.
  split; [exists [0; 1]|exists []]; (split; [reflexivity|]); intros [|i] c d Hc Hd; simpl in Hc, Hd; try discriminate.
  - injection Hc as <-. injection Hd as <-. exists 0. split; [simpl; auto|]. split; apply nx_touch; lia.
  - destruct i; discriminate Hd.
Qed.

Lemma tx_result : Traversal (tx 0) nx [0; 1] [] = Ok ([1; 0; 2; 3; -1; -1]%Z, [5; 4; -1; -1; -1; -1]%Z).
Proof.
  cbv -[Rplus Ropp Rminus Rmult Rinv Rdiv IZR Rlt_dec]. lts. reflexivity.
Qed.

(** Tilted columns: the side faces are not recognised, and take the places of the lower
    ones. *)
Lemma tilted : exists n, DetermineUpwindFaces 5 (tx (1 / 10)) nx [0; 1] [] = Ok n /\
  In 3 (k_faces nx) /\ ~ In 3 (n_faces n) /\ ~ NoDup (n_faces n).
Proof.
  assert (E : Traversal (tx (1 / 10)) nx [0; 1] [] = Ok ([1; 0; -1; -1; -1; -1]%Z, [3; 2; -1; -1; -1; -1]%Z)).
  { cbv -[Rplus Ropp Rminus Rmult Rinv Rdiv IZR Rlt_dec]. lts. reflexivity. }
  unfold DetermineUpwindFaces. rewrite E. cbn [bind fst snd]. eexists. split; [vm_compute; reflexivity|]. simpl.
  split; [auto 8|]. split; [lia|]. intro H.
  apply (NoDup_nth _ 0%nat) with (i := 3%nat) (j := 4%nat) in H; simpl; try lia; reflexivity.
Qed.

(** A step in the ground: cell 0 above the vertex, 1 and 2 below; 0 lies on 1, and 1 and 2
    are side by side; the faces 2 to 6 are on the boundary. *)
Definition ex : corner :=
  mkCorner 0 [0; 1; 2] [2; 3; 4; 5; 6] [(0, 3, 4); (0, 1, 5); (1, 2, 6)] [0; 1; 2; 3; 4; 5; 6]
    [(0, 1); (1, 2); (-1, 2); (-2, 0); (-3, 0); (-4, 1); (-5, 2)]%Z [true; true; false; false; false; false; false]
    [[0; 2; 6; 4]; [0; 8; 9; 2]; [0; 12; 14; 2]; [0; 1; 3; 2]; [0; 1; 5; 4]; [0; 8; 10; 4]; [0; 8; 13; 12]].
Lemma ex_touch : forall f c, touches ex f c <->
  (f = 0 /\ (c = 0 \/ c = 1) \/ f = 1 /\ (c = 1 \/ c = 2) \/ f = 2 /\ c = 2 \/ f = 3 /\ c = 0 \/ f = 4 /\ c = 0 \/
   f = 5 /\ c = 1 \/ f = 6 /\ c = 2).
Proof.
  intros f c. unfold touches. split.
  - intros [[a b] [E H]]. destruct f as [|[|[|[|[|[|[|f]]]]]]]; simpl in E;
      [injection E as <- <-; simpl in H; lia ..|destruct f; discriminate E].
  - intro H. repeat (destruct H as [[-> H]|H]); [..|destruct H as [-> H]]; eexists; (split; [reflexivity|]); simpl; lia.
Qed.
Lemma ex_conforming : conforming ex.
Proof.
  constructor.
  - repeat constructor; simpl; lia.
  - reflexivity.
  - repeat constructor; simpl; lia.
  - repeat constructor; simpl; lia.
  - intros [|[|[|a]]] c f0 f1 f2 Ha Hs; simpl in Ha, Hs; [| | |destruct a; discriminate Ha];
      injection Ha as <-; injection Hs as <- <- <-; (split; [repeat constructor; simpl; lia|]);
      intro f; rewrite ex_touch; simpl; lia.
  - intros f Hf. cases Hf; eexists; eexists; (split; [reflexivity|]); (split; [lia|]); (split; [lia|]);
      (split; [reflexivity|]); intros c Hc; apply ex_touch in Hc; simpl; lia.
  - intro f. split.
    + intro Hf. cases Hf; simpl; auto 10.
    + intros [Hf Hi]. cases Hf; simpl; auto 8; discriminate Hi.
  - intros f h c d _ _ Hcd H1 H2 H3 H4. apply ex_touch in H1, H2, H3, H4. lia.
  - intros f Hf. cases Hf; eexists; (split; [reflexivity|]); simpl; split; auto 10.
Qed.
Lemma ex_uneven : forall vx cc fc, Traversal (mkShape vx cc fc [[0; 3; 4]; [0; 1; 5]; [1; 2; 6]]) ex [0] [1; 2] = UB.
Proof. reflexivity. Qed.
