(** The cells above and below a vertex do for the order around it (C77). *)
From Coq Require Import Reals List Bool Arith ZArith Lia Lra Permutation.
From Verif Require Import Prelude Arrays Geom Mpfao SpecMpfao SpecSubcell Numbering SpecNumbering Traversal SpecTraversal TraversalMainProofs
  Levels SpecLevels LevelsProofs.
Import ListNotations.
Local Open Scope nat_scope.

Lemma perm_iff : forall (l m : list nat) c, Permutation l m -> (In c l <-> In c m).
Proof. intros l m c P. split; [exact (Permutation_in c P)|exact (Permutation_in c (Permutation_sym P))]. Qed.
Lemma perm_ne : forall (l m : list nat), Permutation l m -> m <> [] -> l <> [].
Proof. intros l m P H E. subst l. apply Permutation_nil in P. contradiction. Qed.

Lemma layered_perm : forall h k A B A' B', Permutation A A' -> Permutation B B' -> layered h k A B -> layered h k A' B'.
Proof.
  intros h k A B A' B' PA PB [H1 H2 H3 H4 H5 H6 H7 H8 H9 H10].
  assert (IA := fun c => perm_iff A A' c PA). assert (IB := fun c => perm_iff B B' c PB). constructor; auto.
  - eapply Permutation_trans; [|exact H1]. apply Permutation_app; symmetry; assumption.
  - intros f c d. rewrite <- !IA. exact (H3 f c d).
  - intros f c d. rewrite <- IA, <- IB. exact (H4 f c d).
  - intros f c X Y Z NA NB. exact (H5 f c X Y Z (perm_ne _ _ PA NA) (perm_ne _ _ PB NB)).
  - intros a a' b b'. rewrite <- !IA, <- !IB. exact (H6 a a' b b').
Qed.
Lemma row_perm' : forall k A A', Permutation A A' -> in_a_row k A -> in_a_row k A'.
Proof. intros k A A' P [p [Q H]]. exists p. split; [exact (Permutation_trans Q P)|exact H]. Qed.

Theorem vertex_proof : forall t cap fcap x v k A B, columns t -> FindCellsAboveAndBelowVertices cap t = Ok x ->
  nth_error (t_local t) v = Some true -> level_of t true v A -> level_of t false v B ->
  conforming k -> layered (t_h t) k A B -> 1 < length (k_cells k) -> in_a_row k A -> in_a_row k B -> length (k_faces k) <= fcap ->
  exists n, DetermineUpwindFaces fcap (t_h t) k (row_of (fst (fst x)) v) (row_of (snd (fst x)) v) = Ok n /\
    forall bno G, well_numbered (vertex_of k bno G n) /\ two_sided (vertex_of k bno G n).
Proof.
  intros t cap fcap x v k A B Ht E Hv LA LB Hk Hl Hn RA RB Hc.
  destruct (proj1 (proj2 (sound t Ht cap x E) v Hv)) as [R1 R2].
  assert (PA := level_perm _ _ _ _ _ LA R1). assert (PB := level_perm _ _ _ _ _ LB R2).
  apply determined_proof; auto.
  - exact (layered_perm _ _ _ _ _ _ PA PB Hl).
  - exact (row_perm' _ _ _ PA RA).
  - exact (row_perm' _ _ _ PB RB).
Qed.
