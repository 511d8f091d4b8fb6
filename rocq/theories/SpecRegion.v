(** Specification vocabulary for regions: the region id of a cell. *)
From Coq Require Import List ZArith.
Import ListNotations.
Local Open Scope Z_scope.

Definition valid_cell (ids : list Z) (c : Z) : Prop := 0 <= c < Z.of_nat (length ids).
Definition same_region (ids : list Z) (c1 c2 : Z) : Prop :=
  nth_error ids (Z.to_nat c1) = nth_error ids (Z.to_nat c2).

(** A face between two cells of different regions. *)
Definition separated (ids : list Z) (face : Z * Z) : Prop :=
  0 <= fst face /\ 0 <= snd face /\ ~ same_region ids (fst face) (snd face).
