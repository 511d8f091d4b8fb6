(** C97: the table of closures of the mesh points and the sizes derived from it. *)
From Coq Require Import List ZArith Bool Arith Lia.
From Verif Require Import Prelude Arrays Closures SpecClosures ClosuresProofs ClosuresExamples.
Import ListNotations.
Local Open Scope nat_scope.

(** If no closure has more than 432 points, the closures of all cells, vertices and faces
    are kept whole, each at its own place, and no memory outside the table is touched. *)
Theorem C97_saved_partial : forall dm, proper dm -> (forall e p, keeps dm e p -> length p <= 432) ->
  exists st, SaveClosures dm = Ok st /\ freed st = false /\ (forall e p, keeps dm e p -> holds st e p) /\
    forall e, e < pend dm -> (forall p, ~ keeps dm e p) -> nth_error (csize st) e = Some (-1)%Z.
Proof. intros dm W Hs. destruct (save_all dm W Hs) as [st [E [[F _] [H Z]]]]. exists st. auto. Qed.
(** One closure with more than 432 points (a vertex with many cells around it) is enough
    for the program to use memory it has given back: the function that makes the table
    larger frees the table of the caller and keeps the new one to itself
    (tdyutils.c:29-38). *)
Theorem C97_growth_refuted : forall dm e p, proper dm -> keeps dm e p -> 432 < length p -> SaveClosures dm = UB.
Proof. exact save_grows. Qed.

(** If all cells have the same number of vertices, that number is found. *)
Theorem C97_number : forall dm st n, proper dm -> SaveClosures dm = Ok st -> 0 < cEnd dm -> (forall c, c < cEnd dm -> length (vertices_of dm c) = n) ->
  NumberOfCellVertices dm st = Ok (Z.of_nat n).
Proof. exact number_proof. Qed.
(** For meshes of wedges and of hexahedra the tables get the right sizes, with eight
    corners of three faces per cell. *)
Theorem C97_sizes : forall dm st n l, proper dm -> SaveClosures dm = Ok st -> 0 < cEnd dm -> (forall c, c < cEnd dm -> Z.of_nat (length (vertices_of dm c)) = n) -> shape n l ->
  setup_sizes dm st = Ok (l ++ [8; 3])%Z.
Proof. exact sizes_proof. Qed.
(** The most cells, edges and faces around a vertex. *)
Theorem C97_most : forall dm st, proper dm -> SaveClosures dm = Ok st ->
  (exists m, MaxCellsSharingAVertex dm st = Ok m /\ largest (fun v => length (among 0 (cEnd dm) (star dm v))) (vStart dm) (vEnd dm) m) /\
  (exists m, MaxEdgesSharingAVertex dm st = Ok m /\ largest (fun v => length (among (eStart dm) (eEnd dm) (star dm v))) (vStart dm) (vEnd dm) m) /\
  (exists m, MaxFacesSharingAVertex dm st = Ok m /\ largest (fun v => length (among (fStart dm) (fEnd dm) (star dm v))) (vStart dm) (vEnd dm) m).
Proof. intros dm st W E. split; [|split]; exact (max_proof dm st _ _ W E). Qed.

(** A mesh with cells of different kinds is not refused: the error code comes back as the
    number of vertices, and all tables are made with 83 entries per cell. *)
Theorem C97_mixed_refuted : forall dm st c d, proper dm -> SaveClosures dm = Ok st -> c < cEnd dm -> d < cEnd dm ->
  length (vertices_of dm c) <> length (vertices_of dm d) -> setup_sizes dm st = Ok [83; 83; 83; 83; 83; 83; 83]%Z.
Proof. exact mixed_proof. Qed.
(** Nor is a mesh of tetrahedra, pyramids or anything else that is not supported: 83
    corners per cell, with 83 faces each, and 83 vertices per face. *)
Theorem C97_unsupported_refuted : forall dm st n, proper dm -> SaveClosures dm = Ok st -> 0 < cEnd dm -> (forall c, c < cEnd dm -> Z.of_nat (length (vertices_of dm c)) = n) ->
  n <> 6%Z -> n <> 8%Z -> exists v e nb f, setup_sizes dm st = Ok [v; e; nb; f; 83; 83; 83]%Z.
Proof. exact unsupported_proof. Qed.

(** * Examples *)
Example C97_hexahedron_example : exists st, SaveClosures hx = Ok st /\ setup_sizes hx st = Ok [8; 12; 6; 6; 4; 8; 3]%Z /\
  MaxCellsSharingAVertex hx st = Ok 1 /\ MaxEdgesSharingAVertex hx st = Ok 3 /\ MaxFacesSharingAVertex hx st = Ok 3.
Proof. exact hx_run. Qed.
Example C97_mixed_example : exists st, SaveClosures mx = Ok st /\ length (vertices_of mx 0) = 8 /\ length (vertices_of mx 1) = 6 /\
  setup_sizes mx st = Ok [83; 83; 83; 83; 83; 83; 83]%Z.
Proof. exact mx_run. Qed.
Example C97_growth_example : proper gx /\ SaveClosures gx = UB.
Proof. exact gx_run. Qed.

Print Assumptions C97_saved_partial.
Print Assumptions C97_growth_refuted.
Print Assumptions C97_number.
Print Assumptions C97_sizes.
Print Assumptions C97_most.
Print Assumptions C97_mixed_refuted.
Print Assumptions C97_unsupported_refuted.
