(** Specification vocabulary for the ownership flags. *)
From Coq Require Import List ZArith Bool Arith.
Import ListNotations.
Local Open Scope Z_scope.

(** [ids] is how the cells with the given numbers, some owned and some not, are
    reported: the number of an owned cell, or -(number+1). *)
Definition reported (cells : list (bool * Z)) (gref : list Z) : Prop :=
  Forall2 (fun c g => 0 <= snd c /\ g = if fst c : bool then snd c else - (snd c + 1)) cells gref.

(** The cell belongs to this process. *)
Definition owned (loc : list bool) (c : Z) : Prop := 0 <= c /\ nth_error loc (Z.to_nat c) = Some true.

(** A table holds the rows [L]. *)
Definition holds_rows (num : list nat) (off ids : list Z) (L : list (list Z)) : Prop :=
  forall v l, nth_error L v = Some l ->
    exists o, nth_error num v = Some (length l) /\ nth_error off v = Some (Z.of_nat o) /\
      forall j x, nth_error l j = Some x -> nth_error ids (o + j) = Some x.

(** The two cells of face [f]. *)
Definition first_cell (ids : list Z) (f : nat) : option Z := nth_error ids (2 * f).
Definition second_cell (ids : list Z) (f : nat) : option Z := nth_error ids (2 * f + 1).

(** A face before the numbering: two cells, or one cell and a negative number. *)
Definition sides_known (N : nat) (internal : bool) (a b : Z) : Prop :=
  let real c := 0 <= c < Z.of_nat N in
  if internal then real a /\ real b else (real a /\ b < 0) \/ (a < 0 /\ real b).
Definition faces_known (n N : nat) (internal : list bool) (off ids : list Z) : Prop :=
  length internal = n /\ length ids = (2 * n)%nat /\
  forall f, (f < n)%nat -> nth_error off f = Some (Z.of_nat (2 * f)) /\
    exists i a b, nth_error internal f = Some i /\ first_cell ids f = Some a /\ second_cell ids f = Some b /\ sides_known N i a b.

(** Boundary faces before face [f]. *)
Definition before (internal : list bool) (f : nat) : nat := length (filter negb (firstn f internal)).

(** Where the rows [L] start when they are stored one after the other. *)
Definition starts {A} (L : list (list A)) (off : list Z) : Prop :=
  forall i, (i <= length L)%nat -> nth_error off i = Some (Z.of_nat (length (concat (firstn i L)))).
(** The face has [k] cells. *)
Definition has_cells (ncell : list nat) (k : nat) (p : Z * Z) : bool :=
  match nth_error ncell (Z.to_nat (fst p)) with Some m => (m =? k)%nat | None => false end.
