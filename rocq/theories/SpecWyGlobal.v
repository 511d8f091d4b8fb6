(** What the theorems about the assembled Wheeler-Yotov system say. *)
From Coq Require Import Reals List ZArith Arith Bool Permutation.
From Verif Require Import Prelude SpecFvtpf SpecHdiv Mpfao Wy SpecWy WyGlobal.
Import ListNotations.
Local Open Scope R_scope.

(** What a list of "add to entry" calls amounts to. *)
Definition entry (K : list (Z * Z * R)) (i j : Z) : R :=
  rsum (fun x => if (fst (fst x) =? i)%Z && (snd (fst x) =? j)%Z then snd x else 0) K.
Definition value (F : list (Z * R)) (i : Z) : R := rsum (fun x => if (fst x =? i)%Z then snd x else 0) F.
(** Row [i] of the matrix times the vector [p]. *)
Definition row_times (K : list (Z * Z * R)) (i : Z) (p : Z -> R) : R :=
  rsum (fun x => if (fst (fst x) =? i)%Z then snd x * p (snd (fst x)) else 0) K.

(** A process sees its own cells and some of others'; their global numbers
    are different; [P] holds the pressures of all its cells. *)
Definition number (gid : nat -> Z) (c : nat) : Z := if (gid c <? 0)%Z then (- gid c - 1)%Z else gid c.
Definition owned (gid : nat -> Z) (c : nat) : Prop := (0 <= gid c)%Z.
Definition numbered (m : mesh) (gid : nat -> Z) : Prop :=
  forall c c', (c < length (elements m))%nat -> (c' < length (elements m))%nat -> number gid c = number gid c' -> c = c'.
Definition local_copy (m : mesh) (gid : nat -> Z) (p : Z -> R) (P : list R) : Prop :=
  length P = length (elements m) /\ forall c, (c < length P)%nat -> nth c P 0 = p (number gid c).

(** The vertices [vs] with their surroundings.  [fmap] lists the [nv] vertices of
    every face. *)
Definition vertices_of_face (m : mesh) (nv : nat) (fmap : list nat) (f : nat) : list nat := map (fun j => nth (nv * (f - fStart m) + j) fmap O) (seq 0 nv).
Record whole_mesh (m : mesh) (g : geometry) (nv : nat) (fmap : list nat) (star : nat -> list nat) (vs : list nat) (st : nat -> star_data) : Prop := {
  wm_nv : nv = (2 ^ (dim m - 1))%nat /\ (0 < dim m)%nat;
  wm_areas : g_V g = V m /\ (fEnd m <= length (V m))%nat;
  wm_fmap : length fmap = (nv * (fEnd m - fStart m))%nat;
  wm_vertices : NoDup vs;
  wm_stars : forall v, In v vs -> good_star m (star v) v (st v);
  wm_elements : forall v c, In v vs -> In c (cells_of m (star v)) -> exists DFinv K J, regular_element m (st v) c DFinv K J;
  wm_faces : forall v f, In v vs -> In f (faces_of m (star v)) -> inner_face m (star v) (st v) f \/ exists p, outer_face m (star v) (st v) f p;
  wm_distinct : forall f, (fStart m <= f < fEnd m)%nat -> NoDup (vertices_of_face m nv fmap f)
}.
(** [cone c] are the faces of the cell.  The corners of the cell are among the vertices, with the cell around them; the
    (face, vertex) pairs of the corners are those of the faces of the cell; the sign
    of a face at a corner is that of its normal. *)
Record whole_cell (m : mesh) (g : geometry) (nv : nat) (fmap : list nat) (star : nat -> list nat) (vs : list nat) (st : nat -> star_data) (cone : nat -> list nat) (c : nat) (el : element) : Prop := {
  wc_element : nth_error (elements m) c = Some el /\ NoDup (vmap el);
  wc_vertices : forall v, In v (vmap el) -> In v vs /\ In c (cells_of m (star v));
  wc_pairs : Permutation (flat_map (fun v => map (fun d => (dir_face (st v) c d, v)) (seq 0 (dim m))) (vmap el))
                         (flat_map (fun f => map (fun v => (f, v)) (vertices_of_face m nv fmap f)) (cone c));
  wc_range : forall f, In f (cone c) -> (fStart m <= f < fEnd m)%nat;
  wc_signs : forall v d, In v (vmap el) -> (d < dim m)%nat ->
    away (dim m) g c (dir_face (st v) c d) /\ dir_sign (st v) c d = 1 \/ towards (dim m) g c (dir_face (st v) c d) /\ dir_sign (st v) c d = -1
}.

(** What FormStencil and RecoverVelocity compute at the vertices. *)
Definition stencils (m : mesh) (star : nat -> list nat) (vs : list nat) (C : nat -> nat -> nat -> R) (D : nat -> nat -> R) : Prop :=
  forall v, In v vs -> exists s X Y, vertex_system m (star v) v = Ok s
    /\ FormStencil (length (faces_of m (star v))) (length (cells_of m (star v))) s X Y (C v) (D v).
Definition solved (m : mesh) (P : list R) (star : nat -> list nat) (vs : list nat) (Z : nat -> nat -> R) : Prop :=
  forall v, In v vs -> forall A F, velocity_system m P (star v) v = Ok (A, F) ->
    solves_with (length (faces_of m (star v))) A (fun i => nth i F 0) (Z v).

(** No entry but zero is small compared with another one of the same vertex. *)
Definition significant (m : mesh) (star : nat -> list nat) (vs : list nat) (C : nat -> nat -> nat -> R) : Prop :=
  forall v i j i' j', In v vs -> (i < length (cells_of m (star v)))%nat -> (j < length (cells_of m (star v)))%nat ->
    (i' < length (cells_of m (star v)))%nat -> (j' < length (cells_of m (star v)))%nat ->
    C v i j = 0 \/ 10000 * / 2 ^ 52 * Rabs (C v i' j') <= Rabs (C v i j).
