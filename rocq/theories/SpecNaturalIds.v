(** What C95 means by a distribution of cells over processes. *)
From Coq Require Import List Permutation.
Import ListNotations.
Local Open Scope nat_scope.

(** Every one of the [n] cells is owned by exactly one process, and the local cells of
    every process exist. *)
Record distribution (n : nat) (owned locals : list (list nat)) : Prop := {
  owned_once : Permutation (concat owned) (seq 0 n);
  locals_exist : forall l c, In l locals -> In c l -> c < n
}.
