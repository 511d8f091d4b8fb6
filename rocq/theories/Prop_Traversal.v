(** C77: the cells around a vertex are put in order. *)
From Coq Require Import Reals List Bool Arith ZArith Lia Permutation.
From Verif Require Import Prelude Arrays Geom Mpfao SpecMpfao SpecSubcell Numbering SpecNumbering NumberingProofs NumberingExample
  Traversal SpecTraversal TraversalOrderProofs TraversalProofs TraversalMainProofs TraversalExample.
Import ListNotations.
Local Open Scope nat_scope.

(** Whatever the neighbour relation: if an order is found it has the same cells, each
    beside the next. *)
Theorem C77_circular : forall nb l r, ArrangeCellsInCircularOrder nb l = Ok r ->
  Permutation r l /\ forall i c d, nth_error r i = Some c -> nth_error r (S i) = Some d -> nb c d = true.
Proof.
  intros nb l r E. destruct (circular_sound nb l r E) as [P H]. split; [exact P|]. intros i c d Hc Hd. exact (proj1 (linked_nth nb r) H i c d Hc Hd).
Qed.
(** It is found if the cells form a path or a ring. *)
Theorem C77_circular_found : forall nb p l, Permutation p l -> NoDup p -> 1 < length p ->
  (forall x y, In x p -> In y p -> nb x y = true -> nb y x = true) ->
  (forall i c d, nth_error p i = Some c -> nth_error p (S i) = Some d -> nb c d = true) ->
  (forall i j x y, nth_error p i = Some x -> nth_error p j = Some y -> i < j -> nb x y = true ->
     j = S i \/ (i = 0 /\ S j = length p)) ->
  exists r, ArrangeCellsInCircularOrder nb l = Ok r.
Proof.
  intros nb p l P D L Sy N O. exact (circular_found nb p l P D Sy (proj2 (linked_nth nb p) N) O L).
Qed.

(** On a mesh of columns every result describes a way round the vertex. *)
Theorem C77_order : forall h k A B t0 t1, conforming k -> layered h k A B -> 1 < length (k_cells k) ->
  Traversal h k A B = Ok (t0, t1) -> exists r0 r1, t0 = padded k r0 /\ t1 = padded k r1 /\ round k r0 r1.
Proof. exact order_proof. Qed.
(** There is a result if the cells of each level are side by side. *)
Theorem C77_order_found : forall h k A B, conforming k -> layered h k A B -> 1 < length (k_cells k) ->
  in_a_row k A -> in_a_row k B -> exists r0 r1, Traversal h k A B = Ok (padded k r0, padded k r1) /\ round k r0 r1.
Proof. exact order_found_proof. Qed.

(** With C76: the local systems of such a vertex are well formed. *)
Theorem C77_vertex : forall h k A B cap, conforming k -> layered h k A B -> 1 < length (k_cells k) ->
  in_a_row k A -> in_a_row k B -> length (k_faces k) <= cap ->
  exists n, DetermineUpwindFaces cap h k A B = Ok n /\
    forall bno G, well_numbered (vertex_of k bno G n) /\ two_sided (vertex_of k bno G n).
Proof. exact determined_proof. Qed.

(** Columns that are not vertical: success is reported, but a face of the vertex is lost. *)
Theorem C77_tilted_refuted : exists h k A n, conforming k /\ Permutation A (k_cells k) /\ in_a_row k A /\
  DetermineUpwindFaces 5 h k A [] = Ok n /\ exists f, In f (k_faces k) /\ ~ In f (n_faces n) /\ ~ NoDup (n_faces n).
Proof.
  destruct tilted as [n [E [A [B C]]]]. exists (tx (1 / 10)), nx, [0; 1], n.
  split; [exact nx_conforming|]. split; [reflexivity|]. split; [exact (proj1 tx_row)|]. split; [exact E|]. exists 3. auto.
Qed.
(** One cell above and two below: the order of the single cell is read beyond its end. *)
Theorem C77_uneven_levels_refuted : exists k cf, conforming k /\ k_cells k = [0; 1; 2] /\
  forall vx cc fc, Traversal (mkShape vx cc fc cf) k [0] [1; 2] = UB.
Proof. eexists. eexists. split; [exact ex_conforming|]. split; [reflexivity|]. exact ex_uneven. Qed.

Example C77_example : conforming nx /\ layered (tx 0) nx [0; 1] [] /\ in_a_row nx [0; 1] /\ in_a_row nx [] /\
  Traversal (tx 0) nx [0; 1] [] = Ok ([1; 0; 2; 3; -1; -1]%Z, [5; 4; -1; -1; -1; -1]%Z).
Proof. exact (conj nx_conforming (conj tx_layered (conj (proj1 tx_row) (conj (proj2 tx_row) tx_result)))). Qed.

Print Assumptions C77_circular.
Print Assumptions C77_circular_found.
Print Assumptions C77_order.
Print Assumptions C77_order_found.
Print Assumptions C77_vertex.
Print Assumptions C77_tilted_refuted.
Print Assumptions C77_uneven_levels_refuted.
