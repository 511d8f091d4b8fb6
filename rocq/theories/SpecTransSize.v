(** Vocabulary for the cells and faces of a part of a mesh, independent of the model. *)
From Coq Require Import List ZArith Bool Arith.
From Verif Require Import SpecOwners.
Import ListNotations.
Local Open Scope Z_scope.

(** The cells that other processes own. *)
Definition ghosts (cells : list (bool * Z)) : nat := length (filter (fun c => negb (fst c)) cells).
(** Cell [c] is one of the two of face [f]. *)
Definition on_face (ids : list Z) (c : Z) (f : nat) : Prop := first_cell ids f = Some c \/ second_cell ids f = Some c.
(** No cell of the face is owned. *)
Definition foreign_face (n : nat) (loc : list bool) (ids : list Z) (f : nat) : Prop :=
  (f < n)%nat /\ forall c, on_face ids c f -> ~ owned loc c.
(** How many faces there are without an owned cell. *)
Definition foreign_count (n : nat) (loc : list bool) (ids : list Z) (k : nat) : Prop :=
  exists l, NoDup l /\ length l = k /\ forall f, In f l <-> foreign_face n loc ids f.
