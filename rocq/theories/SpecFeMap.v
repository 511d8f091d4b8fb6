(** What the theorems about the maps of the finite elements say. *)
From Coq Require Import Reals List ZArith Bool Arith.
From Verif Require Import Prelude FeMap.
Import ListNotations.
Local Open Scope nat_scope.

Definition distance (n : nat) (a b : nat -> R) : R := fold_right (fun i s => (Rabs (a i - b i) + s)%R) 0%R (seq 0 n).

(** The vertices of a cell or face. *)
Definition vertices_of (m : plex) (f : nat) : list nat := filter (is_vertex m) (p_closure m f).

(** Every cell of the mesh is the image of [-1,1]^dim.  [corner c v] is its vertex with
    number v (bit e of v: on which side of direction e), [wall c d s] its face normal to
    direction d on side s. *)
Record boxes (m : plex) (corner : nat -> nat -> nat) (wall : nat -> nat -> bool -> nat) : Prop := {
  bx_dim : p_dim m = 2 \/ p_dim m = 3;
  bx_points : 0 < p_fStart m;
  bx_corner : forall c v, c < p_cells m -> v < 2 ^ p_dim m -> In (corner c v) (p_closure m c) /\ is_vertex m (corner c v) = true;
  bx_corners : forall c p, c < p_cells m -> In p (p_closure m c) -> is_vertex m p = true -> exists v, v < 2 ^ p_dim m /\ p = corner c v;
  bx_count : forall c, c < p_cells m -> length (vertices_of m c) = 2 ^ p_dim m;
  bx_image : forall c v i, c < p_cells m -> v < 2 ^ p_dim m -> i < p_dim m ->
    nth_error (p_image m c) (v * p_dim m + i) = Some (p_X m (corner c v) i);
  bx_apart : forall c v w, c < p_cells m -> v < 2 ^ p_dim m -> w < 2 ^ p_dim m -> v <> w ->
    (/ 10 ^ 12 < distance (p_dim m) (p_X m (corner c v)) (p_X m (corner c w)))%R;
  bx_wall : forall c d s, c < p_cells m -> d < p_dim m -> In (wall c d s) (p_closure m c) /\ is_face m (wall c d s) = true;
  bx_walls : forall c p, c < p_cells m -> In p (p_closure m c) -> is_face m p = true -> exists d s, d < p_dim m /\ p = wall c d s;
  bx_side : forall c d s v, c < p_cells m -> d < p_dim m -> v < 2 ^ p_dim m ->
    (In (corner c v) (p_closure m (wall c d s)) <-> Nat.testbit v d = s)
}.
(** The face of corner v in direction d; its normal points out of the cell. *)
Definition wall_of (wall : nat -> nat -> bool -> nat) (c v d : nat) : nat := wall c d (Nat.testbit v d).
Definition outward (m : plex) (c f : nat) : Prop :=
  (0 <= fold_right (fun k s => p_N m f k * (p_X m f k - p_X m c k) + s) 0 (seq 0 (p_dim m)))%R.
(** The sign of an entry tells the direction of the normal, its absolute value the face. *)
Definition denotes (m : plex) (c f : nat) (z : Z) : Prop :=
  Z.abs z = Z.of_nat f /\ (outward m c f -> (0 < z)%Z) /\ (~ outward m c f -> (z < 0)%Z).

Definition square_faces (m : plex) : Prop :=
  forall f, p_fStart m <= f < p_fEnd m -> NoDup (vertices_of m f) /\ length (vertices_of m f) = 2 ^ (p_dim m - 1).
(** Every cell and face has its own range of unknowns, of which [start] tells the first,
    on whichever process it is. *)
Definition first_unknown (s : Z) : Z := Z.max s (- s - 1).
Definition size_of (m : plex) (p : nat) : Z := if is_face m p then Z.of_nat (2 ^ (p_dim m - 1)) else 1%Z.
Definition carries (m : plex) (p : nat) : Prop := p < p_cells m \/ is_face m p = true.
Definition own_ranges (m : plex) (start : nat -> Z) : Prop :=
  (forall c, c < p_cells m -> is_face m c = false) /\
  forall p q, carries m p -> carries m q -> p <> q ->
    (first_unknown (start p) + size_of m p <= first_unknown (start q) \/ first_unknown (start q) + size_of m q <= first_unknown (start p))%Z.
