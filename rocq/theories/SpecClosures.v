(** What the table of closures and the sizes derived from it should be; independent of the
    model of the functions. *)
From Coq Require Import List ZArith Arith.
From Verif Require Import Closures.
Import ListNotations.
Local Open Scope Z_scope.

(** The points of each kind are points of the mesh, and no point is of two kinds. *)
Record proper (dm : plex) : Prop := {
  pr_cells : (cEnd dm <= pend dm)%nat;
  pr_verts : (vEnd dm <= pend dm)%nat;
  pr_faces : (fEnd dm <= pend dm)%nat;
  pr_cv : forall e, (vStart dm <= e < vEnd dm)%nat -> ~ (e < cEnd dm)%nat;
  pr_cf : forall e, (fStart dm <= e < fEnd dm)%nat -> ~ (e < cEnd dm)%nat;
  pr_vf : forall e, (fStart dm <= e < fEnd dm)%nat -> ~ (vStart dm <= e < vEnd dm)%nat
}.

(** The closure to be kept for a point: downwards for cells and faces, upwards for
    vertices. *)
Inductive keeps (dm : plex) : nat -> list (Z * Z) -> Prop :=
| keeps_cell e : (e < cEnd dm)%nat -> keeps dm e (cone dm e)
| keeps_vertex e : (vStart dm <= e < vEnd dm)%nat -> keeps dm e (star dm e)
| keeps_face e : (fStart dm <= e < fEnd dm)%nat -> keeps dm e (cone dm e).

(** The table holds the closure of a point: its length, and the points with their
    orientations, one after the other. *)
Definition holds (st : table) (e : nat) (p : list (Z * Z)) : Prop :=
  nth_error (csize st) e = Some (Z.of_nat (length p)) /\
  exists r, nth_error (rows st) e = Some r /\
    forall k q, nth_error p k = Some q -> nth_error r (2 * k) = Some (fst q) /\ nth_error r (2 * k + 1) = Some (snd q).

(** Of a closure, the points numbered from [a] to [b] (excluded). *)
Definition among (a b : nat) (p : list (Z * Z)) : list Z :=
  filter (fun x => Z.of_nat a <=? x) (filter (fun x => x <? Z.of_nat b) (map fst p)).
Definition vertices_of (dm : plex) (c : nat) : list Z := among (vStart dm) (vEnd dm) (cone dm c).

(** The largest value of [f] on a range; zero on an empty one. *)
Definition largest (f : nat -> nat) (a b m : nat) : Prop :=
  (forall x, (a <= x < b)%nat -> (f x <= m)%nat) /\ (m = 0%nat \/ exists x, (a <= x < b)%nat /\ f x = m).

(** Vertices, edges, neighbours, faces of a cell, vertices of its largest face, corners
    and faces of a corner meeting in the vertex. *)
Inductive shape : Z -> list Z -> Prop :=
| wedge : shape 6 [6; 9; 5; 5; 4]
| hexahedron : shape 8 [8; 12; 6; 6; 4].
