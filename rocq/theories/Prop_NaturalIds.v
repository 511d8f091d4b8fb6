(** C95: natural numbers and region numbers of cells. *)
From Coq Require Import List ZArith Lia Permutation.
From Verif Require Import Prelude NaturalIds SpecNaturalIds NaturalIdsProofs.
Import ListNotations.
Local Open Scope nat_scope.

(** With one unknown per cell every process stores, for each of its cells and ghosts, the
    place of the cell in the original mesh, however the cells are distributed. *)
Theorem C95_one_field_partial : forall n owned locals, distribution n owned locals ->
  natural_ids 1 owned locals = Ok (map (map Z.of_nat) locals).
Proof. exact one_field. Qed.

(** With several unknowns per cell (water and heat: two) the number stored is wrong
    already on one process: [nf] times the place of the cell. *)
Theorem C95_one_process_refuted : forall n l locals nf, distribution n [l] locals -> 2 <= nf ->
  natural_ids nf [l] locals = Ok (map (map (fun c => Z.of_nat (nf * c))) locals).
Proof. exact one_process. Qed.

(** With several unknowns per cell and several processes different cells get the same
    number whenever the number of cells of the first process is a multiple of the number
    of unknowns: the cells [k] and [nf * k], if the first process owns [nf * k] cells
    (tdymeshplex.c:631 adds the place in the vector, which counts unknowns, to a number
    of cells). *)
Theorem C95_collision_refuted : forall n first owned locals nf k, distribution n (first :: owned) locals -> 2 <= nf -> 1 <= k -> length first = nf * k -> nf * k < n ->
  exists ids, natural_ids nf (first :: owned) locals = Ok ids /\ k <> nf * k /\
  forall p i q j l l' r r', nth_error locals p = Some l -> nth_error l i = Some k -> nth_error locals q = Some l' -> nth_error l' j = Some (nf * k) ->
    nth_error ids p = Some r -> nth_error ids q = Some r' -> nth_error r i = nth_error r' j.
Proof. exact several_fields. Qed.

(** A file with one group of [nf] numbers per cell of the original mesh gives every cell
    the first number of its group, if VecLoad splits the file exactly as the cells are
    distributed. *)
Theorem C95_regions_partial : forall n owned locals nf file, distribution n owned locals -> 0 < nf -> length file = n * nf ->
  decided (length file) (length owned) = sizes nf owned ->
  region_ids nf owned locals file = Ok (map (map (fun c => nth (c * nf) file 0%Z)) locals).
Proof. exact regions_ok. Qed.

(** In all other cases memory outside the vector read from the file is accessed: the
    vector is created without the layout of the mesh (tdymeshplex.c:674-681). *)
Theorem C95_regions_refuted : forall n owned locals nf file, distribution n owned locals -> length file = n * nf ->
  decided (length file) (length owned) <> sizes nf owned -> region_ids nf owned locals file = UB.
Proof. exact regions_ub. Qed.

(** Five cells on two processes: cells 4, 0 and 2 on the first, 1 and 3 on the second,
    with ghosts.  With two unknowns and the cells 4, 0, 2 and 3 on the first process,
    cells 2 and 4 both get the number 4. *)
Example C95_example :
  distribution 5 [[4; 0; 2]; [1; 3]] [[4; 0; 2; 1]; [1; 3; 2; 4]] /\
  natural_ids 1 [[4; 0; 2]; [1; 3]] [[4; 0; 2; 1]; [1; 3; 2; 4]] = Ok [[4; 0; 2; 1]; [1; 3; 2; 4]]%Z /\
  natural_ids 2 [[4; 0; 2; 3]; [1]] [[4; 0; 2; 3; 1]; [1; 2]] = Ok [[4; 0; 4; 6; 2]; [2; 4]]%Z /\
  region_ids 1 [[4; 0; 2]; [1; 3]] [[4; 0; 2; 1]; [1; 3; 2; 4]] [10; 11; 12; 13; 14]%Z = Ok [[14; 10; 12; 11]; [11; 13; 12; 14]]%Z /\
  region_ids 1 [[4; 0; 2; 3]; [1]] [[4; 0; 2; 3; 1]; [1; 2]] [10; 11; 12; 13; 14]%Z = UB.
Proof.
  split; [|repeat split; vm_compute; reflexivity]. constructor.
  - change (Permutation [4; 0; 2; 1; 3] [0; 1; 2; 3; 4]). apply (NoDup_Permutation).
    + repeat constructor; cbn; intuition discriminate.
    + repeat constructor; cbn; intuition discriminate.
    + intro x. cbn. intuition.
  - intros l c [<- | [<- | []]] H; cbn in H; lia.
Qed.

Print Assumptions C95_one_field_partial.
Print Assumptions C95_one_process_refuted.
Print Assumptions C95_collision_refuted.
Print Assumptions C95_regions_partial.
Print Assumptions C95_regions_refuted.
Print Assumptions C95_example.
