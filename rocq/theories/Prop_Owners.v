(** Theorems of property C88 (see properties.jsonl). *)
From Coq Require Import List ZArith Bool Arith Lia Permutation.
From Verif Require Import Prelude Arrays Mesh Owners SpecOwners OwnersProofs.
Import ListNotations.
Local Open Scope Z_scope.

(** The flags and numbers of the cells are the true ones, and the owned ones are
    counted. *)
Theorem C88_cells : forall cells gref loc gid,
  reported cells gref -> length loc = length cells -> length gid = length cells ->
  identify_cells gref loc gid = Ok (map fst cells, map snd cells, length (filter fst cells)).
Proof. exact cells_identified. Qed.
Print Assumptions C88_cells.

(** A vertex is local when one of the cells around it is owned. *)
Theorem C88_vertices : forall n loc num off ids L,
  length L = n -> holds_rows num off ids L -> (forall l c, In l L -> In c l -> c < Z.of_nat (length loc)) ->
  exists flags, identify_vertices n loc num off ids (repeat false n) = Ok flags /\ length flags = n /\
    forall v l, nth_error L v = Some l -> (nth_error flags v = Some true <-> exists c, In c l /\ owned loc c).
Proof. exact vertices_identified. Qed.
Print Assumptions C88_vertices.

(** A face is local when one of its cells is owned; its cells keep their places; the
    missing sides are numbered from -1 down to minus the number of boundary faces,
    in the order of the faces. *)
Theorem C88_faces : forall n loc internal off ids,
  faces_known n (length loc) internal off ids ->
  exists s (num : nat -> nat), identify_faces n loc internal off ids (repeat false n) = Ok s /\
    length (b_ids s) = length ids /\ length (b_flags s) = n /\
    b_count s = length (filter negb internal) /\
    (forall f, nth_error internal f = Some false -> (1 <= num f <= b_count s)%nat) /\
    (forall f g, nth_error internal f = Some false -> nth_error internal g = Some false -> (f < g)%nat -> (num f < num g)%nat) /\
    (forall k, (1 <= k <= b_count s)%nat -> exists f, nth_error internal f = Some false /\ num f = k) /\
    forall f i a b, nth_error internal f = Some i -> first_cell ids f = Some a -> second_cell ids f = Some b ->
      (nth_error (b_flags s) f = Some true <-> owned loc a \/ owned loc b) /\
      first_cell (b_ids s) f = Some (if 0 <=? a then a else - Z.of_nat (num f)) /\
      second_cell (b_ids s) f = Some (if 0 <=? b then b else - Z.of_nat (num f)).
Proof. exact faces_numbered. Qed.
Print Assumptions C88_faces.

(** Where an owned cell has a part of a face, neither the vertex nor the face is
    skipped when fluxes are added up. *)
Theorem C88_not_skipped : forall n nv loc internal off ids num voff vids L s vflags f v l i a b c,
  faces_known n (length loc) internal off ids ->
  identify_faces n loc internal off ids (repeat false n) = Ok s ->
  length L = nv -> holds_rows num voff vids L -> (forall l c, In l L -> In c l -> c < Z.of_nat (length loc)) ->
  identify_vertices nv loc num voff vids (repeat false nv) = Ok vflags ->
  nth_error internal f = Some i -> first_cell ids f = Some a -> second_cell ids f = Some b ->
  nth_error L v = Some l -> c = a \/ c = b -> owned loc c -> In c l ->
  nth_error (b_flags s) f = Some true /\ nth_error vflags v = Some true.
Proof. exact owned_not_skipped. Qed.
Print Assumptions C88_not_skipped.

(** Around every vertex the faces with two cells are listed first, in the order they
    had, then those with one; each sub-face stays with its face. *)
Theorem C88_order : forall ncell off L ra rb,
  starts L off ->
  (forall l p, In l L -> In p l -> exists m, 0 <= fst p /\ nth_error ncell (Z.to_nat (fst p)) = Some m /\ (m = 1%nat \/ m = 2%nat)) ->
  let L' := map (fun l => filter (has_cells ncell 2) l ++ filter (has_cells ncell 1) l) L in
  order_all (length L) ncell off (map fst (concat L) ++ ra) (map snd (concat L) ++ rb) =
    Ok (map fst (concat L') ++ ra, map snd (concat L') ++ rb) /\
  starts L' off /\ Forall2 (@Permutation _) L L'.
Proof. exact faces_ordered. Qed.
Print Assumptions C88_order.

(** Two cells, the first of them owned; two faces between cell and boundary on either
    side, one between the cells; one vertex on all of the faces, one of the second
    cell only. *)
Example C88_example :
  reported [(true, 7); (false, 3)] [7; -4] /\
  identify_cells [7; -4] [false; false] [-1; -1] = Ok ([true; false], [7; 3], 1%nat) /\
  holds_rows [2; 1]%nat [0; 2] [0; 1; 1; -1] [[0; 1]; [1]] /\
  identify_vertices 2 [true; false] [2; 1]%nat [0; 2] [0; 1; 1; -1] [false; false] = Ok [true; false] /\
  faces_known 4 2 [false; true; false; false] [0; 2; 4; 6] [0; -1; 0; 1; 1; -1; -1; 0] /\
  identify_faces 4 [true; false] [false; true; false; false] [0; 2; 4; 6] [0; -1; 0; 1; 1; -1; -1; 0] [false; false; false; false] =
    Ok (mkNumbering [0; -1; 0; 1; 1; -2; -3; 0] [true; true; false; true] 3).
Proof.
  split; [|split; [reflexivity|split; [|split; [reflexivity|split; [|reflexivity]]]]].
  - repeat constructor; cbn; lia.
  - intros [|[|[|v]]] l E; cbn in E; try discriminate; injection E as <-.
    + exists 0%nat. split; [reflexivity|split; [reflexivity|]]. intros [|[|[|j]]] x H; cbn in *; congruence.
    + exists 2%nat. split; [reflexivity|split; [reflexivity|]]. intros [|[|j]] x H; cbn in *; congruence.
  - split; [reflexivity|split; [reflexivity|]].
    intros f Hf. destruct f as [|[|[|[|f]]]]; [| | | |lia]; (split; [reflexivity|]); do 3 eexists;
      (split; [reflexivity|split; [reflexivity|split; [reflexivity|]]]); cbn; lia.
Qed.

(** Three faces around a vertex and one around another. *)
Example C88_order_example :
  starts [[(4, 0); (1, 2); (3, 1)]; [(0, 5)]] [0; 3; 4] /\
  order_all 2 [2; 2; 1; 2; 1]%nat [0; 3; 4] [4; 1; 3; 0; -1] [0; 2; 1; 5; -1] =
    Ok ([1; 3; 4; 0; -1], [2; 1; 0; 5; -1]).
Proof.
  split; [|reflexivity]. intros i Hi. cbn in Hi. destruct i as [|[|[|i]]]; [reflexivity..|lia].
Qed.
