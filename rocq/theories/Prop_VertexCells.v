(** C93: the cells around a vertex of a mesh that is read from a file. *)
From Coq Require Import List ZArith Arith Lia.
From Verif Require Import Prelude MeshFaces VertexCells SpecVertexCells VertexCellsProofs.
Import ListNotations.
Local Open Scope nat_scope.

(** If at most 24 cells share a vertex, the map has for every vertex exactly the cells
    that have it, in increasing order, and their number. *)
Theorem C93_map_partial : forall cnv cv ng nv, numbered_cells cnv cv ng nv ->
  (forall v, v < nv -> length (cells_at cnv cv ng v) <= 24) ->
  exists num v2c, setup_v2c cnv cv ng nv = Ok (num, v2c) /\ length num = nv /\
    forall v, v < nv -> nth_error num v = Some (length (cells_at cnv cv ng v)) /\
      forall p a, nth_error (cells_at cnv cv ng v) p = Some a -> exists r, nth_error v2c p = Some r /\ nth_error r v = Some (Z.of_nat a).
Proof. exact v2c_ok. Qed.

(** Whenever more than 24 cells share a vertex, the set-up writes past the table before
    it could report the error: the test comes after the write, and it looks at the
    vertex with the number of the position within the cell (tdymeshcustom.c:814-820). *)
Theorem C93_too_many_refuted : forall cnv cv ng nv, numbered_cells cnv cv ng nv ->
  forall v, v < nv -> 24 < length (cells_at cnv cv ng v) -> setup_v2c cnv cv ng nv = UB.
Proof. intros cnv cv ng nv W v. exact (v2c_overflow cnv cv ng nv W v). Qed.

(** [n] tetrahedra around the vertex 0. *)
Definition star_cnv (n : nat) := repeat 4 n.
Definition star_cv (n : nat) := map (fun c => [0; 3 * Z.of_nat c + 1; 3 * Z.of_nat c + 2; 3 * Z.of_nat c + 3; -1; -1; -1; -1]%Z) (seq 0 n).
Lemma star_vertices n c : c < n -> vertices (star_cnv n) (star_cv n) c = [0; 3 * Z.of_nat c + 1; 3 * Z.of_nat c + 2; 3 * Z.of_nat c + 3]%Z.
Proof.
  intro H. unfold vertices, star_cnv, star_cv. rewrite (nth_error_nth _ _ _ (nth_error_repeat 4 H)).
  erewrite nth_error_nth; [|rewrite nth_error_map, (nth_error_nth' _ 0) by (rewrite seq_length; exact H); rewrite seq_nth by exact H; reflexivity]. reflexivity.
Qed.
Example star_ok n : numbered_cells (star_cnv n) (star_cv n) n (4 + 3 * n).
Proof.
  split.
  - intros c H. exists 4. eexists. split; [apply nth_error_repeat, H|]. split.
    + unfold star_cv. rewrite nth_error_map, (nth_error_nth' _ 0) by (rewrite seq_length; exact H). rewrite seq_nth by exact H. reflexivity.
    + cbn. lia.
  - intros c H. rewrite star_vertices by exact H. repeat constructor; cbn [In]; lia.
  - intros c z H. rewrite star_vertices by exact H. cbn [In]. lia.
  - intros c H. rewrite star_vertices by exact H. cbn [length]. lia.
Qed.
(** 24 tetrahedra around a vertex fit, 25 do not. *)
Example C93_example :
  (exists m, setup_v2c (star_cnv 24) (star_cv 24) 24 76 = Ok m /\ firstn 3 (fst m) = [24; 1; 1] /\ map (fun r => nth 0 r (-1)%Z) (snd m) = map Z.of_nat (seq 0 24)) /\
  length (cells_at (star_cnv 25) (star_cv 25) 25 0) = 25 /\ setup_v2c (star_cnv 25) (star_cv 25) 25 79 = UB.
Proof. split; [eexists; split; [vm_compute; reflexivity|split; vm_compute; reflexivity]|split; vm_compute; reflexivity]. Qed.

Print Assumptions C93_map_partial.
Print Assumptions C93_too_many_refuted.
Print Assumptions C93_example.
