(** Distributions of a mesh, and the cell of the file a local cell stands for. *)
From Coq Require Import Reals List Bool Arith ZArith String Permutation.
From Verif Require Import Prelude ReadMat.
Import ListNotations.

(** N cells; every natural number occurs once; the cells of the process exist. *)
Definition distribution (N : nat) (d : part) : Prop :=
  Permutation (ao d) (map Z.of_nat (seq 0 N)) /\ list_sum (nls d) = N /\ off d + nl d <= N /\
  (forall g, In g (ghosts d) -> g < N).

(** The i-th cell of the process (its own cells first, then the ghosts) is cell c of the file. *)
Definition cell_of_file (d : part) (i c : nat) : Prop :=
  exists p, (if i <? nl d then Some (off d + i) else nth_error (ghosts d) (i - nl d)) = Some p /\
            nth_error (ao d) p = Some (Z.of_nat c).

(** The value of every cell of the process is the one the file has for it. *)
Definition from_file (d : part) (u v : list R) : Prop :=
  List.length v = nl d + List.length (ghosts d) /\
  forall i c, cell_of_file d i c -> nth_error v i = nth_error u c.

(** Entry (row, col) of the i-th of a list of 3x3 matrices. *)
Definition entry3 (f : list R) (i row col : nat) : option R := nth_error f (9 * i + 3 * row + col).
