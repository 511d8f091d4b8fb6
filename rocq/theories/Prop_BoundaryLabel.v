(** C112: the faces of the boundary that callers are given. *)
From Coq Require Import List ZArith Bool Arith Lia.
From Verif Require Import Prelude BoundaryLabel SpecBoundaryLabel BoundaryLabelProofs.
Import ListNotations.
Local Open Scope Z_scope.

(** When there is a boundary face, the caller is given every boundary face, nothing twice,
    only points of the closures of boundary faces, and their number; handing them back
    leaves the label as it is.  Missing: that only faces are given, and processes without
    boundary faces (see the theorems below). *)
Theorem C112_given_partial : forall m, closed m -> (exists f, boundary_face m f) ->
  exists num faces l, GetBoundaryFaces (new_label m) = Ok (num, faces, l) /\ num = length faces /\ NoDup faces /\
    (forall f, boundary_face m f -> In f faces) /\ (forall x, In x faces -> exists f, boundary_face m f /\ In x (closure m f)) /\
    exists l', RestoreBoundaryFaces l = Ok l' /\ stratum l' = faces.
Proof. exact all_given. Qed.

(** The label was completed with the closures of the faces under the same value: edges and
    vertices of the boundary are given as faces, and the number is larger than that of the
    boundary faces. *)
Theorem C112_only_faces_refuted : forall m f p, closed m -> boundary_face m f -> In p (closure m f) -> ~ face m p ->
  exists num faces l, GetBoundaryFaces (new_label m) = Ok (num, faces, l) /\ In p faces /\
    forall b, NoDup b -> (forall x, In x b <-> boundary_face m x) -> (length b < num)%nat.
Proof. exact not_only_faces. Qed.

(** A process without boundary faces gets an error instead of an empty list. *)
Theorem C112_none_refuted : forall m, closed m -> (forall f, ~ boundary_face m f) ->
  GetBoundaryFaces (new_label m) = Err /\ RestoreBoundaryFaces (new_label m) = Err.
Proof. exact none_marked. Qed.

(** Handing back takes another reference instead of returning the first: after [k] rounds
    2k references are left over, and the index set outlives the mesh. *)
Theorem C112_references_refuted : forall m k, closed m -> (exists f, boundary_face m f) ->
  exists l, ask k (new_label m) = Ok l /\ stratum l = boundary_label m /\ references l = (1 + 2 * k)%nat.
Proof. exact references_left. Qed.

(** A tetrahedron: cell 0, vertices 1 to 4, faces 5 to 8, edges 9 to 14. *)
Definition tet_closure (p : Z) : list Z :=
  match p with
  | 0 => [0; 5; 6; 7; 8; 9; 10; 11; 12; 13; 14; 1; 2; 3; 4]
  | 5 => [5; 9; 10; 11; 1; 2; 3] | 6 => [6; 9; 12; 13; 1; 2; 4] | 7 => [7; 11; 12; 14; 1; 3; 4] | 8 => [8; 10; 13; 14; 2; 3; 4]
  | 9 => [9; 1; 2] | 10 => [10; 2; 3] | 11 => [11; 1; 3] | 12 => [12; 1; 4] | 13 => [13; 2; 4] | 14 => [14; 3; 4]
  | _ => [p]
  end.
Definition tet : plex := mkPlex 5 9 (fun _ => 1%nat) tet_closure.
Example C112_example : GetBoundaryFaces (new_label tet) =
  Ok (14%nat, [5; 6; 7; 8; 9; 10; 11; 1; 2; 3; 12; 13; 4; 14], mkLabel [5; 6; 7; 8; 9; 10; 11; 1; 2; 3; 12; 13; 4; 14] 2).
Proof. reflexivity. Qed.
Example C112_boundary_face : boundary_face tet 5 /\ In 9 (closure tet 5) /\ ~ face tet 9.
Proof. unfold boundary_face, face, tet. cbn. intuition lia. Qed.
Example C112_closed : closed tet.
Proof.
  split.
  - intro p. cbn. unfold tet_closure. destruct p as [|p|p]; [cbn; auto| |cbn; auto]. do 4 (destruct p as [p|p|]; try (cbn; auto; fail)).
  - assert (X : forallb (fun p => forallb (fun q => forallb (fun r => existsb (Z.eqb r) (tet_closure p)) (tet_closure q)) (tet_closure p)) (map Z.of_nat (seq 0 15)) = true) by (vm_compute; reflexivity).
    rewrite forallb_forall in X. intros p q r Hq Hr. change (closure tet) with tet_closure in *.
    destruct (Z_le_gt_dec 0 p) as [P0|P0]; [destruct (Z_le_gt_dec p 14) as [P1|P1]|].
    + specialize (X p ltac:(replace p with (Z.of_nat (Z.to_nat p)) by lia; apply in_map, in_seq; lia)). rewrite forallb_forall in X. specialize (X q Hq).
      rewrite forallb_forall in X. specialize (X r Hr). apply existsb_exists in X. destruct X as [x [I E]]. apply Z.eqb_eq in E. subst. exact I.
    + assert (E : tet_closure p = [p]) by (unfold tet_closure; destruct p as [|p|p]; [lia| |lia]; do 4 (destruct p as [p|p|]; try reflexivity; try lia)).
      rewrite E in *. destruct Hq as [<-|[]]. rewrite E in Hr. exact Hr.
    + assert (E : tet_closure p = [p]) by (destruct p; [lia|lia|reflexivity]). rewrite E in *. destruct Hq as [<-|[]]. rewrite E in Hr. exact Hr.
Qed.

Print Assumptions C112_given_partial.
Print Assumptions C112_only_faces_refuted.
Print Assumptions C112_none_refuted.
Print Assumptions C112_references_refuted.
