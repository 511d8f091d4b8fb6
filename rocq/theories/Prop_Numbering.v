(** C76: the faces around a vertex are numbered consistently. *)
From Coq Require Import Reals List Bool Arith ZArith Lia.
From Verif Require Import Prelude Arrays Mpfao SpecMpfao SpecSubcell Numbering SpecNumbering NumberingProofs NumberingSubProofs NumberingExample.
Import ListNotations.
Local Open Scope Z_scope.

(** Going round the vertex in two levels gives every face of the vertex exactly one
    connection, those between cells first. *)
Theorem C76_connected : forall k r0 r1 cap, conforming k -> round k r0 r1 ->
  (0 < length (k_cells k))%nat -> (length (k_faces k) <= cap)%nat ->
  exists ups, SetUpToDownConnections cap (length (k_cells k)) (length (k_bnd k)) (padded k r0) (padded k r1) = Ok ups /\
    connected k ups.
Proof. exact connected_proof. Qed.

(** From such connections the faces of the sub-cells get numbers with which the local
    systems are well formed: two sub-cells have the same unknown exactly where they have
    the same face, one is upwind and the other downwind, and the row of the vertex at the
    place of a face is that face's sub-face at the vertex. *)
Theorem C76_numbered : forall k ups, conforming k -> connected k ups ->
  exists n, SetupUpwindFacesForSubcell k ups = Ok n /\
  forall bno G, well_numbered (vertex_of k bno G n) /\ two_sided (vertex_of k bno G n) /\
    (forall q h i c f, nth_error (all_faces (vertex_of k bno G n)) q = Some h -> nth_error (slots k) q = Some (i, c, f) ->
       (sf_internal h = inside k f) /\
       (exists vs j, nth_error (k_fverts k) f = Some vs /\ nth_error vs j = Some (k_iv k) /\
          nth_error (v_rows (vertex_of k bno G n)) (place (vertex_of k bno G n) h) = Some (f * 4 + j)%nat) /\
       (forall q' h' i' c' f', nth_error (all_faces (vertex_of k bno G n)) q' = Some h' ->
          nth_error (slots k) q' = Some (i', c', f') -> (sf_unk h = sf_unk h' <-> f = f'))).
Proof. exact numbered_proof. Qed.

(** Together. *)
Theorem C76_vertex : forall k r0 r1 cap, conforming k -> round k r0 r1 ->
  (0 < length (k_cells k))%nat -> (length (k_faces k) <= cap)%nat ->
  exists n, NumberVertex cap k (padded k r0) (padded k r1) = Ok n /\
  forall bno G, well_numbered (vertex_of k bno G n) /\ two_sided (vertex_of k bno G n).
Proof.
  intros k r0 r1 cap Hk Hr Hp Hc. destruct (connected_proof k r0 r1 cap Hk Hr Hp Hc) as [ups [E C]].
  destruct (numbered_proof k ups Hk C) as [n [En Hn]]. exists n. split.
  - unfold NumberVertex. rewrite E. exact En.
  - intros bno G. destruct (Hn bno G) as [A [B _]]. split; assumption.
Qed.

(** If the way round misses a boundary face (its other vertices are not straight above or
    below), the numbering is wrong and success is reported: a face of the vertex
    disappears from its list of faces. *)
Theorem C76_missed_face_refuted : exists k r0 r1 n, conforming k /\
  NumberVertex 5 k (padded k r0) (padded k r1) = Ok n /\
  exists f, In f (k_faces k) /\ ~ In f (n_faces n) /\ ~ NoDup (n_faces n).
Proof.
  destruct nx_lost as [n [E [A [B C]]]]. exists nx, [0; 1], nx1, n.
  split; [exact nx_conforming|]. split; [exact E|]. exists 3%nat. auto.
Qed.
(** If the cells above and below were not determined, memory before the array is written. *)
Theorem C76_no_levels_refuted : exists k, conforming k /\ NumberVertex 5 k (padded k []) (padded k []) = UB.
Proof. exists nx. split; [exact nx_conforming|exact nx_unset]. Qed.

Example C76_example : conforming nx /\ round nx nx0 nx1 /\
  NumberVertex 5 nx (padded nx nx0) (padded nx nx1) =
  Ok (mkNumbers [0; 1; 2; 0; 3; 4] [1; 1; 0; 0; 1; 0] [0; 1; 1; 0; 2; 2]%Z
        [0; 1; 4; 3; 2]%nat [0; 0; 2; 2; 1]%nat).
Proof. exact (conj nx_conforming (conj nx_round nx_result)). Qed.

Print Assumptions C76_connected.
Print Assumptions C76_numbered.
Print Assumptions C76_vertex.
Print Assumptions C76_missed_face_refuted.
Print Assumptions C76_no_levels_refuted.
