(** C78: the cells above and below every vertex are found. *)
From Coq Require Import Reals List Bool Arith ZArith Lia Permutation.
From Verif Require Import Prelude Arrays Geom Mpfao SpecMpfao SpecSubcell Numbering SpecNumbering
  Traversal SpecTraversal TraversalExample Levels SpecLevels LevelsProofs LevelsVertexProofs LevelsExample LevelsStep.
Import ListNotations.
Local Open Scope nat_scope.

(** On a mesh of vertical columns, with enough room in the rows, every local vertex ends
    with exactly the cells above and below it, although most rows are derived from those of
    other vertices. *)
Theorem C78_levels : forall t cap, columns t -> roomy cap t -> exists x, FindCellsAboveAndBelowVertices cap t = Ok (x, true) /\
  forall v, nth_error (t_local t) v = Some true -> right_at t x v.
Proof. exact levels_proof. Qed.
(** Whatever the room: if the search ends, its result is right and no error was met. *)
Theorem C78_sound : forall t cap r, columns t -> FindCellsAboveAndBelowVertices cap t = Ok r ->
  snd r = true /\ forall v, nth_error (t_local t) v = Some true -> right_at t (fst r) v.
Proof.
  intros t cap r Ht E. destruct (sound t Ht cap r E) as [O H]. split; [exact O|]. intros v Hv. exact (proj1 (H v Hv)).
Qed.
(** With C77: the local systems of the vertex are well formed. *)
Theorem C78_vertex : forall t cap fcap x v k A B, columns t -> FindCellsAboveAndBelowVertices cap t = Ok x ->
  nth_error (t_local t) v = Some true -> level_of t true v A -> level_of t false v B ->
  conforming k -> layered (t_h t) k A B -> 1 < length (k_cells k) -> in_a_row k A -> in_a_row k B -> length (k_faces k) <= fcap ->
  exists n, DetermineUpwindFaces fcap (t_h t) k (row_of (fst (fst x)) v) (row_of (snd (fst x)) v) = Ok n /\
    forall bno G, well_numbered (vertex_of k bno G n) /\ two_sided (vertex_of k bno G n).
Proof. exact vertex_proof. Qed.
(** The rows have as many entries as a vertex has cells at most, one of which holds the
    number: enough if no level has that many. *)
Theorem C78_setup_partial : forall t, columns t ->
  (forall v up l, v < length (t_vcells t) -> level_of t up v l -> length l < MaxNumberOfCellsSharingAVertex t) ->
  exists x, SetupLevels t = Ok x /\ forall v, nth_error (t_local t) v = Some true -> right_at t x v.
Proof. exact setup_proof. Qed.

(** On every mesh where some local vertex has the largest number of cells, all on one side
    (such as a mesh with one layer of cells), memory behind a row is written. *)
Theorem C78_one_layer_refuted : forall t v cs up, columns t -> nth_error (t_local t) v = Some true ->
  nth_error (t_vcells t) v = Some cs -> (forall u cu, nth_error (t_vcells t) u = Some cu -> length cu <= length cs) ->
  (forall c, In c cs -> lies t up v c) -> SetupLevels t = UB.
Proof. exact one_layer_proof. Qed.
(** A vertex with unequal levels is refused, but the refusal is not looked at: all vertices
    stay without cells above and below, and the numbering then uses -1 as an index. *)
Theorem C78_uneven_refuted : exists t k x, conforming k /\ DetermineCellsAboveAndBelow t (k_iv k) = Err /\ SetupLevels t = Ok x /\
  (forall v, row_of (fst x) v = [] /\ row_of (snd x) v = []) /\
  DetermineUpwindFaces 7 (t_h t) k (row_of (fst x) (k_iv k)) (row_of (snd x) (k_iv k)) = UB.
Proof.
  exists step, ex. eexists. split; [exact ex_conforming|]. split; [exact step_error|]. split; [exact step_levels|]. split; [|exact step_upwind].
  assert (X : forall v, row_of (unset step) v = []) by (intro v; unfold row_of, unset; rewrite nth_repeat; reflexivity).
  intro v. cbn [fst snd]. split; apply X.
Qed.

(** A column of at least two cubes satisfies all hypotheses. *)
Example C78_example : forall n, 2 <= n -> columns (stack n) /\ exists x, SetupLevels (stack n) = Ok x /\
  forall v, v < 4 * n + 4 -> right_at (stack n) x v.
Proof. intros n Hn. split; [exact (stack_columns n ltac:(lia))|exact (stack_setup n Hn)]. Qed.
Example C78_one_cell : columns (stack 1) /\ SetupLevels (stack 1) = UB.
Proof. split; [exact (stack_columns 1 ltac:(lia))|exact stack_one]. Qed.

Print Assumptions C78_levels.
Print Assumptions C78_sound.
Print Assumptions C78_vertex.
Print Assumptions C78_setup_partial.
Print Assumptions C78_one_layer_refuted.
Print Assumptions C78_uneven_refuted.
