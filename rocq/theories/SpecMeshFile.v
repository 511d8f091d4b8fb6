(** What a mesh file says, independent of the model's functions. *)
From Coq Require Import List Arith ZArith.
Import ListNotations.
Local Open Scope Z_scope.

(** A cell of the file: its type and its vertices, numbered from 1.  It takes up
    a block of [bs] entries, unused ones 0. *)
Notation file_cell := (Z * list Z)%type.
Definition block (bs : nat) (c : file_cell) : list Z :=
  fst c :: snd c ++ repeat 0 (bs - 1 - length (snd c)).
Definition cells_vector (bs : nat) (cells : list file_cell) : list Z := concat (map (block bs) cells).

(** The vertices of a cell as the program is to keep them: from 0, unused
    entries -1. *)
Definition kept_vertices (bs : nat) (c : file_cell) : list Z :=
  map (fun x => x - 1) (snd c) ++ repeat (-1) (bs - 1 - length (snd c)).

(** Tetrahedra, pyramids, prisms and hexahedra. *)
Definition supported (c : file_cell) : Prop := In (fst c) [4; 5; 6; 8].

(** Two cells share (at least) three vertices, as cells with a common face do. *)
Definition share_three (a b : list Z) : Prop :=
  exists x y z, x <> y /\ x <> z /\ y <> z /\ incl [x; y; z] a /\ incl [x; y; z] b.
