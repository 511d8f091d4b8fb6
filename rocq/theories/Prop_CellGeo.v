(** C91: volumes and centres of cells read from a mesh file. *)
From Coq Require Import Reals List ZArith Lra Lia.
From Verif Require Import Prelude Arrays Geom SpecGeom UGrid FaceGeo SpecFaceGeo FaceGeoProofs CellGeo SpecCellGeo CellGeoProofs.
Import ListNotations.
Local Open Scope R_scope.

(** Every cell that is a convex tetrahedron, pyramid, wedge or hexahedron with flat
    faces gets its volume (the sum of the pyramids over its faces, with any apex), a
    centre that is the mean of its corners and strictly inside the cell, its natural
    number, and the flag of local cells exactly if it is one of the first.  The cells
    may be of different kinds.  Missing: cells with warped faces. *)
Theorem C91_cells_partial : forall coords cv cnv nat_ids maxv nl ng,
  length cnv = ng -> length cv = ng -> length nat_ids = ng ->
  (forall i, (i < ng)%nat -> exists row pts, nth_error cv i = Some row /\ nth_error cnv i = Some (length pts) /\
     (length pts <= maxv)%nat /\ (length pts <= length row)%nat /\
     (forall j, (j < length pts)%nat -> exists id, nth_error row j = Some id /\ at_ coords id (nth j pts origin)) /\ convex_cell pts) ->
  exists cells, setup_cells coords cv cnv nat_ids maxv nl ng = Ok cells /\ length cells = ng /\
    forall i row pts id, nth_error cv i = Some row -> nth_error cnv i = Some (length pts) -> nth_error nat_ids i = Some id ->
      (forall j, (j < length pts)%nat -> exists id, nth_error row j = Some id /\ at_ coords id (nth j pts origin)) ->
      exists c v, nth_error cells i = Some (mkUcell id (Some c) (i <? nl)%nat v) /\ mean pts c /\ inside pts c /\
        0 < v /\ forall o, v = volume o pts.
Proof. exact cells_ok. Qed.
Print Assumptions C91_cells_partial.

Definition box1 : list v3 := [V3 0 0 0; V3 1 0 0; V3 1 1 0; V3 0 1 0; V3 0 0 1; V3 1 0 1; V3 (3/2) 1 1; V3 0 1 1].
Definition box2 : list v3 := [V3 1 0 0; V3 2 0 0; V3 2 1 0; V3 1 1 0; V3 1 0 1; V3 2 0 1; V3 2 1 1; V3 (3/2) 1 1].
Definition whole : list v3 := [V3 0 0 0; V3 2 0 0; V3 2 1 0; V3 0 1 0; V3 0 0 1; V3 2 0 1; V3 2 1 1; V3 0 1 1].
Ltac absolute := unfold Rabs; repeat match goal with |- context[Rcase_abs ?x] => destruct (Rcase_abs x) end; lra.
Lemma volumes_of_boxes : ComputeVolume (map Some box1) 8 = Ok (13 / 12) /\ ComputeVolume (map Some box2) 8 = Ok (5 / 6).
Proof.
  split; cbn [map box1 box2 ComputeVolume add_tets hex_tets add_tet corner rd nth_error bind]; f_equal;
    unfold VolumeofTetrahedron, DotProduct, CrossProduct; cbn [vx vy vz]; absolute.
Qed.
(** Two cells that fill a box of volume 2, with a warped face between them: the faces
    of the box are flat, each of them is made up of faces of the two cells, and the
    face between the cells is the same for both.  The volumes add up to 23/12,
    because the two cells split the common face along different diagonals. *)
Theorem C91_warped_refuted : exists a b,
  pick box1 [1; 2; 6; 5]%nat = pick box2 [0; 3; 7; 4]%nat /\
  (forall o, sum (map (fun s => pyramid o (pick box1 s)) [[0; 1; 5; 4]; [2; 3; 7; 6]; [3; 0; 4; 7]; [0; 3; 2; 1]; [4; 5; 6; 7]]%nat)
     + sum (map (fun s => pyramid o (pick box2 s)) [[0; 1; 5; 4]; [1; 2; 6; 5]; [2; 3; 7; 6]; [0; 3; 2; 1]; [4; 5; 6; 7]]%nat) = volume o whole) /\
  (forall o, volume o whole = 2) /\
  ComputeVolume (map Some box1) 8 = Ok a /\ ComputeVolume (map Some box2) 8 = Ok b /\ a + b < 2.
Proof.
  destruct volumes_of_boxes as [V1 V2]. exists (13 / 12), (5 / 6).
  split; [reflexivity|]. split; [|split; [|split; [exact V1|split; [exact V2|lra]]]].
  - intro o. unfold volume. cbn [length whole box1 box2 sides map pick nth pyramid fan sum].
    unfold triple, dot, cross, vsub. cbn [vx vy vz]. field.
  - intro o. unfold volume. cbn [length whole sides map pick nth pyramid fan sum].
    unfold triple, dot, cross, vsub. cbn [vx vy vz]. field.
Qed.
Print Assumptions C91_warped_refuted.

Ltac turn k := exists k; split; [lra|]; unfold cross, vsub, vscale; cbn [vx vy vz]; f_equal; try lra.
Ltac poly n k := exists n; split; [split; [unfold unit, dot; cbn [vx vy vz]; try lra; field_simplify; try lra|repeat split; turn k]|
  intros i Hi Hn; do 8 (destruct i as [|i]; [first [exfalso; cbn in Hn; tauto | unfold height, dot, vsub; cbn [nth hd vx vy vz]; try lra; fail]|]); cbn in Hi; lia].
(** A cube is such a cell; its volume is 1 and its centre in the middle. *)
Definition cube : list v3 := [V3 0 0 0; V3 1 0 0; V3 1 1 0; V3 0 1 0; V3 0 0 1; V3 1 0 1; V3 1 1 1; V3 0 1 1].
Lemma cube_convex : convex_cell cube.
Proof.
  split; [discriminate|]. intros s Hs. cbn [length cube sides] in Hs.
  destruct Hs as [<-|[<-|[<-|[<-|[<-|[<-|[]]]]]]]; cbn [pick map nth cube length hd].
  - poly (V3 0 (-1) 0) 1.
  - poly (V3 1 0 0) 1.
  - poly (V3 0 1 0) 1.
  - poly (V3 (-1) 0 0) 1.
  - poly (V3 0 0 (-1)) 1.
  - poly (V3 0 0 1) 1.
Qed.
Example C91_example : exists c,
  setup_cells cube [[0; 1; 2; 3; 4; 5; 6; 7]%Z] [8%nat] [7%Z] 8 1 1 = Ok [mkUcell 7 (Some c) true 1] /\ c = V3 (1/2) (1/2) (1/2).
Proof.
  destruct (C91_cells_partial cube [[0; 1; 2; 3; 4; 5; 6; 7]%Z] [8%nat] [7%Z] 8 1 1 eq_refl eq_refl eq_refl) as [cells [E [L H]]].
  - intros i Hi. assert (i = 0%nat) by lia. subst i. exists [0; 1; 2; 3; 4; 5; 6; 7]%Z, cube.
    split; [reflexivity|]. split; [reflexivity|]. split; [cbn; lia|]. split; [cbn; lia|]. split; [|exact cube_convex].
    intros j Hj. do 8 (destruct j as [|j]; [eexists; split; [reflexivity|]; split; [lia|reflexivity]|]). cbn in Hj. lia.
  - destruct (H 0%nat [0; 1; 2; 3; 4; 5; 6; 7]%Z cube 7%Z eq_refl eq_refl eq_refl) as [c [v [N [[M1 [M2 M3]] [_ [_ V]]]]]].
    + intros j Hj. do 8 (destruct j as [|j]; [eexists; split; [reflexivity|]; split; [lia|reflexivity]|]). cbn in Hj. lia.
    + exists c. destruct cells as [|x [|? ?]]; try discriminate L. cbn in N. injection N as N.
      assert (v = 1).
      { rewrite (V origin). unfold volume. cbn [length cube sides map pick nth pyramid fan sum]. unfold triple, dot, cross, vsub, origin. cbn [vx vy vz]. field. }
      split; [rewrite E; subst; reflexivity|]. destruct c as [x1 x2 x3]. cbn [length cube map sum vx vy vz] in M1, M2, M3.
      change (INR 8) with (1 + 1 + 1 + 1 + 1 + 1 + 1 + 1) in *. f_equal; lra.
Qed.
