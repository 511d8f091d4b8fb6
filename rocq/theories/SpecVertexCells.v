(** Specification vocabulary for the cells around a vertex. *)
From Coq Require Import List ZArith Arith.
Import ListNotations.
Local Open Scope nat_scope.

Definition vertices (cnv : list nat) (cv : list (list Z)) (c : nat) : list Z := firstn (nth c cnv 0) (nth c cv []).
(** The cells among the first [ng] that have the vertex [v], in increasing order. *)
Definition cells_at (cnv : list nat) (cv : list (list Z)) (ng v : nat) : list nat :=
  filter (fun c => existsb (Z.eqb (Z.of_nat v)) (vertices cnv cv c)) (seq 0 ng).
(** Cells with different vertices, numbered below [nv]; there are at least as many
    vertices as one cell has. *)
Record numbered_cells (cnv : list nat) (cv : list (list Z)) (ng nv : nat) : Prop := {
  nc_read : forall c, c < ng -> exists n r, nth_error cnv c = Some n /\ nth_error cv c = Some r /\ n <= length r;
  nc_different : forall c, c < ng -> NoDup (vertices cnv cv c);
  nc_range : forall c z, c < ng -> In z (vertices cnv cv c) -> (z < Z.of_nat nv)%Z;
  nc_room : forall c, c < ng -> length (vertices cnv cv c) <= nv }.
