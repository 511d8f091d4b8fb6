(** A cube with a wedge, which is a ghost, beside it. *)
From Coq Require Import Reals List ZArith Arith Bool Lia Lra.
From Verif Require Import Prelude Arrays Geom SpecGeom UGrid MeshFaces SpecFaceGeo CellGeo SpecCellGeo SpecMeshFaces MeshFacesExamples FaceAttr SpecFaceAttr.
Import ListNotations.
Local Open Scope nat_scope.

Definition cw_cnv : list nat := [8; 6].
Definition cw_cv : list (list Z) := [[0; 1; 2; 3; 4; 5; 6; 7]; [2; 1; 8; 6; 5; 9; -1; -1]]%Z.
Definition cw_nbs : list (nat * list Z) := [(1%nat, [-1; -1; -1; -1; -1; -1])]%Z.
Definition cw_coords : list v3 := [V3 0 0 0; V3 1 0 0; V3 1 1 0; V3 0 1 0; V3 0 0 1; V3 1 0 1; V3 1 1 1; V3 0 1 1; V3 (7/3) 0 0; V3 (7/3) 0 1]%R.
Definition cw_pts (c : nat) : list v3 := match c with
  | 0 => [V3 0 0 0; V3 1 0 0; V3 1 1 0; V3 0 1 0; V3 0 0 1; V3 1 0 1; V3 1 1 1; V3 0 1 1]
  | _ => [V3 1 1 0; V3 1 0 0; V3 (7/3) 0 0; V3 1 1 1; V3 1 0 1; V3 (7/3) 0 1] end%R.

Definition cw_commonb (c i d j : nat) : bool :=
  (i <? nsides cw_cnv c) && (j <? nsides cw_cnv d) && subset (side cw_cnv cw_cv c i) (side cw_cnv cw_cv d j) && subset (side cw_cnv cw_cv d j) (side cw_cnv cw_cv c i).
Lemma cw_commonb_spec c i d j : common cw_cnv cw_cv c i d j <-> cw_commonb c i d j = true.
Proof.
  unfold cw_commonb, common. rewrite !andb_true_iff, !Nat.ltb_lt, !subset_incl. unfold incl. split.
  - intros [H1 [H2 H3]]. repeat split; try assumption; intros v; apply H3.
  - intros [[[H1 H2] H3] H4]. split; [exact H1|]. split; [exact H2|]. intro v. split; [apply H3|apply H4].
Qed.
Lemma cw_common c i d j : c < 2 -> d < 2 -> c <> d -> common cw_cnv cw_cv c i d j <-> (c, i, d, j) = (0, 1, 1, 0) \/ (c, i, d, j) = (1, 0, 0, 1).
Proof.
  intros Hc Hd N. rewrite cw_commonb_spec. split.
  - intro C. assert (L : i < 6 /\ j < 6).
    { apply cw_commonb_spec in C. destruct C as [H1 [H2 _]]. destruct c as [|[|c]]; destruct d as [|[|d]]; cbn in H1, H2; lia. }
    destruct L as [L1 L2]. destruct c as [|[|c]]; destruct d as [|[|d]]; try lia;
      do 6 (destruct i as [|i]; [do 6 (destruct j as [|j]; [vm_compute in C; first [discriminate C|tauto]|]); lia|]); lia.
  - intros [H|H]; injection H as -> -> -> ->; vm_compute; reflexivity.
Qed.
Lemma cw_conforming : conforming 1 2 cw_cnv cw_cv cw_nbs.
Proof.
  split; try reflexivity; [lia| | | |].
  - intros c Hc. destruct c as [|[|c]]; [| |lia]; cbn [cw_cnv cw_cv nth firstn length]; (split; [cbn; tauto|split; [lia|]]);
      repeat constructor; cbn; intuition lia.
  - intros c i d j e k Hc Hd He N1 N2 A B. lia.
  - intros c i d j i' j' Hc Hd N A B. apply cw_common in A; [|assumption..]. apply cw_common in B; [|assumption..]. intuition congruence.
  - intros c n r E. destruct c as [|c]; [|destruct c; discriminate E]. injection E as <- <-. cbn [firstn map Z.abs length].
    split; [lia|]. split; [repeat constructor; cbn; intuition lia|]. split; [intros z Hz; cbn in Hz; lia|].
    intros d Hd. destruct d as [|[|d]]; [| |lia]; cbn [In Z.of_nat Pos.of_succ_nat Pos.succ].
    + split; [intuition lia|]. intros [X _]. congruence.
    + split; [intros _; split; [lia|]; exists 1, 0; apply cw_common; [lia|lia|lia|tauto]|tauto].
Qed.

Local Open Scope R_scope.
Ltac turn k := exists k; split; [lra|]; unfold cross, vsub, vscale; cbn [vx vy vz]; f_equal; try lra.
Ltac poly n k := exists n; split; [split; [unfold unit, dot; cbn [vx vy vz]; try lra; field_simplify; try lra|repeat split; turn k]|
  intros i Hi Hn; do 8 (destruct i as [|i]; [first [exfalso; cbn in Hn; tauto | unfold height, dot, vsub; cbn [nth hd vx vy vz]; lra | exfalso; cbn in Hi; lia]|]); cbn in Hi; lia].
Lemma cw_solid : solid cw_coords cw_cnv cw_cv cw_pts 2.
Proof.
  split.
  - intros c Hc. destruct c as [|[|c]]; [| |lia]; split; try discriminate; intros s Hs; cbn [length cw_pts sides] in Hs.
    + destruct Hs as [<-|[<-|[<-|[<-|[<-|[<-|[]]]]]]]; cbn [pick map nth cw_pts length hd].
      * poly (V3 0 (-1) 0) 1.
      * poly (V3 1 0 0) 1.
      * poly (V3 0 1 0) 1.
      * poly (V3 (-1) 0 0) 1.
      * poly (V3 0 0 (-1)) 1.
      * poly (V3 0 0 1) 1.
    + destruct Hs as [<-|[<-|[<-|[<-|[<-|[]]]]]]; cbn [pick map nth cw_pts length hd].
      * poly (V3 (-1) 0 0) 1.
      * poly (V3 0 (-1) 0) (4 / 3).
      * poly (V3 (3 / 5) (4 / 5) 0) (5 / 3).
      * poly (V3 0 0 (-1)) (4 / 3).
      * poly (V3 0 0 1) (4 / 3).
  - intros c Hc. destruct c as [|[|c]]; [reflexivity|reflexivity|lia].
  - intros c Hc j Hj. destruct c as [|[|c]]; [| |lia]; cbn [length cw_pts] in Hj;
      do 8 (destruct j as [|j]; [split; [cbn; lia|reflexivity]|]); lia.
  - intros c i d j Hc Hd N H. apply cw_common in H; [|assumption..]. destruct H as [H|H]; injection H as -> -> -> ->.
    + exists [2; 1]%Z, [5; 6]%Z. split; reflexivity.
    + exists [1; 2]%Z, [6; 5]%Z. split; reflexivity.
Qed.
