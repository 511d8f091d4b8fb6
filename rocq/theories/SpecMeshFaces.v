(** Specification vocabulary for meshes that are given by the vertices of their cells:
    common sides and conforming meshes. *)
From Coq Require Import List ZArith.
From Verif Require Import SpecCellGeo.
Import ListNotations.
Local Open Scope nat_scope.

(** [cnv]: the number of vertices of every cell; [cv]: their numbers.  [side c i] lists
    the vertices of the [i]-th side of the cell [c] ([SpecCellGeo.sides]: in the order
    in which they are met on a walk around the side). *)
Definition nsides (cnv : list nat) (c : nat) : nat := length (sides (nth c cnv 0)).
Definition side (cnv : list nat) (cv : list (list Z)) (c i : nat) : list Z :=
  map (fun k => nth k (nth c cv []) 0%Z) (nth i (sides (nth c cnv 0)) []).
(** The [i]-th side of [c] is the [j]-th side of [d]. *)
Definition common (cnv : list nat) (cv : list (list Z)) (c i d j : nat) : Prop :=
  i < nsides cnv c /\ j < nsides cnv d /\ (forall v, In v (side cnv cv c i) <-> In v (side cnv cv d j)).
Definition adjacent (cnv : list nat) (cv : list (list Z)) (c d : nat) : Prop := exists i j, common cnv cv c i d j.

(** A conforming mesh of [ng] cells, the first [nl] of which are local, with its table
    of neighbours: for every local cell a number of entries and the entries, [d] for a
    local neighbour and [-d] for a ghost. *)
Record conforming (nl ng : nat) (cnv : list nat) (cv : list (list Z)) (nbs : list (nat * list Z)) : Prop := {
  cf_local : nl <= ng;
  cf_cnv : length cnv = ng;
  cf_cv : length cv = ng;
  cf_nbs : length nbs = nl;
  (** Every cell is a tetrahedron, a pyramid, a wedge or a hexahedron with different vertices. *)
  cf_kind : forall c, c < ng -> In (nth c cnv 0) [4; 5; 6; 8] /\ nth c cnv 0 <= length (nth c cv []) /\
    NoDup (firstn (nth c cnv 0) (nth c cv []));
  (** A side belongs to at most two cells, and two cells have at most one side in common. *)
  cf_two : forall c i d j e k, c < ng -> d < ng -> e < ng -> c <> d -> c <> e ->
    common cnv cv c i d j -> common cnv cv c i e k -> d = e;
  cf_one : forall c i d j i' j', c < ng -> d < ng -> c <> d ->
    common cnv cv c i d j -> common cnv cv c i' d j' -> i = i' /\ j = j';
  (** The neighbours of a local cell are listed once each. *)
  cf_row : forall c n row, nth_error nbs c = Some (n, row) ->
    n <= length row /\ NoDup (map Z.abs (firstn n row)) /\
    (forall z, In z (firstn n row) -> (0 <= z < Z.of_nat nl)%Z \/ (Z.of_nat nl <= - z < Z.of_nat ng)%Z) /\
    (forall d, d < ng -> (In (Z.of_nat d) (map Z.abs (firstn n row)) <-> d <> c /\ adjacent cnv cv c d)) }.

(** The same walk around a side, started elsewhere. *)
Definition rotation {A} (l m : list A) : Prop := exists a b, l = a ++ b /\ m = b ++ a.
(** The column [f] of a table begins with the list [l]. *)
Definition column (t : list (list Z)) (f : nat) (l : list Z) : Prop :=
  forall k x, nth_error l k = Some x -> exists r, nth_error t k = Some r /\ nth_error r f = Some x.
