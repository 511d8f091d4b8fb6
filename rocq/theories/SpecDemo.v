(** What the test problems of the demonstrations should satisfy: the functions give values
    of fields at each of the points they are called for, and the fields solve
    v = - K grad p, div v = f. *)
From Coq Require Import Reals List Arith.
From Coquelicot Require Import Coquelicot.
From Verif Require Import Prelude.
Local Open Scope R_scope.

(** A function called for [n] points with coordinates [x] and an array for the result. *)
Definition code := nat -> list R -> list fl -> outcome (list fl).

(** The coordinates of the point [i] of a list of points in [d] dimensions. *)
Definition point (d : nat) (x : list R) (i : nat) : nat -> R := fun k => nth (d * i + k) x 0.

(** For every number of points the code sets the [w] entries of each point to the values of
    the field at that point, and leaves what follows in the array alone. *)
Definition fills (d w : nat) (c : code) (F : (nat -> R) -> nat -> R) : Prop :=
  forall n x (out : list fl), length x = (d * n)%nat -> (w * n <= length out)%nat ->
  exists out', c n x out = Ok out' /\ length out' = length out /\
    (forall i k, (i < n)%nat -> (k < w)%nat -> nth_error out' (w * i + k) = Some (Some (F (point d x i) k))) /\
    (forall j, (w * n <= j)%nat -> nth_error out' j = nth_error out j).

(** The values for one point, with an array that may be longer. *)
Definition gives (d w size : nat) (c : code) (F : (nat -> R) -> nat -> R) : Prop :=
  forall x (out : list fl), length x = d -> length out = size ->
  exists out', c 1%nat x out = Ok out' /\ length out' = size /\
    forall k, (k < w)%nat -> nth_error out' k = Some (Some (F (point d x 0) k)).

(** [q] with coordinate [k] replaced. *)
Definition put (q : nat -> R) (k : nat) (t : R) : nat -> R := fun j => if Nat.eqb j k then t else q j.

Fixpoint sum (n : nat) (f : nat -> R) : R := match n with 0%nat => 0 | S n => sum n f + f n end.

(** Darcy's law and mass balance at every point, for a permeability stored by rows. *)
Definition darcy (d : nat) (K : (nat -> R) -> nat -> R) (p : (nat -> R) -> R)
    (v : (nat -> R) -> nat -> R) (f : (nat -> R) -> R) : Prop :=
  forall q, exists g w : nat -> R,
    (forall k, (k < d)%nat -> is_derive (fun t => p (put q k t)) (q k) (g k)) /\
    (forall k, (k < d)%nat -> v q k = - sum d (fun j => K q (d * k + j)%nat * g j)) /\
    (forall k, (k < d)%nat -> is_derive (fun t => v (put q k t) k) (q k) (w k)) /\
    f q = sum d w.

(** Permeability, pressure, velocity and forcing belong together. *)
Definition solution (d : nat) (K : (nat -> R) -> nat -> R) (p : (nat -> R) -> R) (perm pressure velocity forcing : code) : Prop :=
  exists v f, fills d (d * d) perm K /\ fills d 1 pressure (fun q _ => p q) /\ fills d d velocity v /\
    fills d 1 forcing (fun q _ => f q) /\ darcy d K p v f.
(** The same for one point, as the library asks for boundary values and sources: the array
    for the velocity has three entries. *)
Definition point_solution (d : nat) (K : (nat -> R) -> nat -> R) (p : (nat -> R) -> R) (perm pressure velocity forcing : code) : Prop :=
  exists v f, fills d (d * d) perm K /\ fills d 1 pressure (fun q _ => p q) /\ gives d d 3 velocity v /\
    fills d 1 forcing (fun q _ => f q) /\ darcy d K p v f.

Definition symmetric_positive (d : nat) (K : nat -> R) : Prop :=
  (forall k j, (k < d)%nat -> (j < d)%nat -> K (d * k + j)%nat = K (d * j + k)%nat) /\
  forall u : nat -> R, (exists k, (k < d)%nat /\ u k <> 0) ->
    0 < sum d (fun k => u k * sum d (fun j => K (d * k + j)%nat * u j)).

(** The same tensor everywhere. *)
Definition table (l : list R) : (nat -> R) -> nat -> R := fun _ k => nth k l 0.

(** A coordinate of the unit square or cube stays inside, and on its side. *)
Definition unit_side (x x' : R) : Prop := (0 <= x <= 1 -> 0 <= x' <= 1) /\ (x = 0 -> x' = 0) /\ (x = 1 -> x' = 1).
