(** What the sub-cells are to hold, independent of the model's functions. *)
From Coq Require Import List.
Import ListNotations.

(** [n] rows of [d] entries each, one after the other. *)
Definition table {A} (n d : nat) (rows : list (list A)) (ids : list A) : Prop :=
  length rows = n /\ Forall (fun r => length r = d) rows /\ ids = concat rows.
