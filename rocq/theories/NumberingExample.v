(** A vertex in the middle of an edge of the domain: two cells side by side, the face 0
    between them, their side faces 1 and 2, their bottom faces 3 and 4. *)
From Coq Require Import Reals List Bool Arith ZArith Lia.
From Verif Require Import Prelude Arrays Mpfao SpecMpfao SpecSubcell Numbering SpecNumbering NumberingProofs NumberingSubProofs.
Import ListNotations.
Local Open Scope Z_scope.

Definition nx : corner :=
  mkCorner 7 [0; 1]%nat [1; 2; 3; 4]%nat [(0, 1, 3); (0, 4, 2)]%nat [0; 1; 2; 3; 4]%nat
    [(0, 1); (-1, 0); (-2, 1); (-3, 0); (-4, 1)] [true; false; false; false; false]
    [[7; 1; 2; 3]; [7; 4; 5; 1]; [8; 7; 1; 6]; [10; 4; 7; 3]; [9; 8; 7; 3]]%nat.
Definition nx0 : list Z := [0; 1; 3; 2].
Definition nx1 : list Z := [4; 5].

Ltac cases H := simpl in H; repeat (destruct H as [H|H]; [subst|]); try (destruct H).

Lemma nx_touch : forall f c, touches nx f c <->
  (f = 0 /\ (c = 0 \/ c = 1) \/ f = 1 /\ c = 0 \/ f = 2 /\ c = 1 \/ f = 3 /\ c = 0 \/ f = 4 /\ c = 1)%nat.
Proof.
  intros f c. unfold touches. split.
  - intros [[a b] [E H]]. destruct f as [|[|[|[|[|f]]]]]; simpl in E;
      [injection E as <- <-; simpl in H; lia ..|destruct f; discriminate E].
  - intros [[-> H]|[[-> H]|[[-> H]|[[-> H]|[-> H]]]]]; eexists; (split; [reflexivity|]); simpl; lia.
Qed.
Lemma nx_conforming : conforming nx.
Proof.
  constructor.
  - repeat constructor; simpl; lia.
  - reflexivity.
  - repeat constructor; simpl; lia.
  - repeat constructor; simpl; lia.
  - intros [|[|a]] c f0 f1 f2 Ha Hs; simpl in Ha, Hs; [| |destruct a; discriminate Ha];
      injection Ha as <-; injection Hs as <- <- <-; (split; [repeat constructor; simpl; lia|]);
      intro f; rewrite nx_touch; simpl; lia.
  - intros f Hf. cases Hf; eexists; eexists; (split; [reflexivity|]); (split; [lia|]); (split; [lia|]);
      (split; [reflexivity|]); intros c Hc; apply nx_touch in Hc; simpl; lia.
  - intro f. split.
    + intro Hf. cases Hf; simpl; auto 8.
    + intros [Hf Hi]. cases Hf; simpl; auto; discriminate Hi.
  - intros f h c d _ _ Hcd H1 H2 H3 H4. apply nx_touch in H1, H2, H3, H4. lia.
  - intros f Hf. cases Hf; eexists; (split; [reflexivity|]); simpl; split; auto 8.
Qed.

Lemma nx_in : forall a b f ca cb, nth_error (k_cells nx) a = Some ca -> nth_error (k_cells nx) b = Some cb ->
  ca <> cb -> touches nx f ca -> touches nx f cb -> In f (k_faces nx) -> joined nx (Z.of_nat a) (Z.of_nat b).
Proof. intros a b f ca cb Ha Hb Hne Ta Tb Hf. exists f. split; [exact Hf|]. left. exact (ends_in nx f a b ca cb Ha Hb Hne Ta Tb). Qed.
Lemma nx_out : forall a j f ca, nth_error (k_cells nx) a = Some ca -> nth_error (k_bnd nx) j = Some f ->
  touches nx f ca -> In f (k_faces nx) -> joined nx (Z.of_nat a) (Z.of_nat (2 + j)).
Proof. intros a j f ca Ha Hj Ta Hf. exists f. split; [exact Hf|]. left. exact (ends_out nx f a j ca Ha Hj Ta). Qed.
Lemma joined_sym : forall k x y, joined k x y -> joined k y x.
Proof. intros k x y [f [Hf [H|H]]]; exists f; (split; [exact Hf|]); [right|left]; exact H. Qed.

Lemma nx_round : round nx nx0 nx1.
Proof.
  assert (J01 : joined nx 0 1) by (apply (nx_in 0 1 0 0 1); try reflexivity; try apply nx_touch; simpl; lia).
  assert (J13 : joined nx 1 3) by (apply (nx_out 1 1 2 1); try reflexivity; try apply nx_touch; simpl; lia).
  assert (J02 : joined nx 0 2) by (apply (nx_out 0 0 1 0); try reflexivity; try apply nx_touch; simpl; lia).
  assert (J04 : joined nx 0 4) by (apply (nx_out 0 2 3 0); try reflexivity; try apply nx_touch; simpl; lia).
  assert (J15 : joined nx 1 5) by (apply (nx_out 1 3 4 1); try reflexivity; try apply nx_touch; simpl; lia).
  constructor.
  - repeat constructor; simpl; lia.
  - intros x Hx. cases Hx; simpl; lia.
  - intros a Ha. simpl in Ha. destruct a as [|[|a]]; [left; reflexivity|right; left; reflexivity|lia].
  - split.
    + intros [|[|[|[|i]]]] x y Hx Hy Hc; simpl in Hx, Hy; [| | | |destruct i; discriminate Hx];
        injection Hx as <-; injection Hy as <-; auto.
      * unfold is_cell in Hc; simpl in Hc. lia.
      * apply joined_sym. exact J02.
    + intros x _ _. simpl. lia.
  - split.
    + intros [|[|i]] x y Hx Hy Hc; simpl in Hx, Hy; [| |destruct i; discriminate Hx];
        injection Hx as <-; injection Hy as <-; unfold is_cell in Hc; simpl in Hc; lia.
    + intros x Hx Hc. cases Hx; unfold is_cell in Hc; simpl in Hc; lia.
  - intros [|[|i]] x y Hx Hy Hc; simpl in Hx, Hy; [| |destruct i; discriminate Hy];
      injection Hx as <-; injection Hy as <-; assumption.
  - intros [|[|[|[|i]]]] x Hx Hc; simpl in Hx |- *; try lia; try (destruct i; discriminate Hx);
      injection Hx as <-; unfold is_cell in Hc; simpl in Hc; lia.
  - intros i x Hx Hc. exfalso. destruct i as [|[|i]]; simpl in Hx; [| |destruct i; discriminate Hx];
      injection Hx as <-; unfold is_cell in Hc; simpl in Hc; lia.
Qed.

(** What comes out: three unknowns per sub-cell, the faces in the order internal, upwind,
    downwind. *)
Lemma nx_result : NumberVertex 5 nx (padded nx nx0) (padded nx nx1) =
  Ok (mkNumbers [0; 1; 2; 0; 3; 4] [1; 1; 0; 0; 1; 0] [0; 1; 1; 0; 2; 2]%Z
        [0; 1; 4; 3; 2]%nat [0; 0; 2; 2; 1]%nat).
Proof. vm_compute. reflexivity. Qed.

(** The side faces are not found (their other vertices are not straight above): success is
    reported, but face 3 is no longer among the faces of the vertex. *)
Lemma nx_lost : exists n, NumberVertex 5 nx (padded nx [0; 1]) (padded nx nx1) = Ok n /\
  In 3%nat (k_faces nx) /\ ~ In 3%nat (n_faces n) /\ ~ NoDup (n_faces n).
Proof.
  eexists. split; [vm_compute; reflexivity|]. simpl. split; [auto 8|]. split; [lia|].
  intro H. apply (NoDup_nth _ 0%nat) with (i := 2%nat) (j := 4%nat) in H; simpl; try lia; reflexivity.
Qed.
(** No cells above and none below (the levels were not determined). *)
Lemma nx_unset : NumberVertex 5 nx (padded nx []) (padded nx []) = UB.
Proof. vm_compute. reflexivity. Qed.
