(** Properties of the multi-dimensional work arrays. *)
From Coq Require Import Reals ZArith Bool List Arith Lia.
From Verif Require Import Prelude Arrays Memory MemoryProofs.
Import ListNotations.
Local Open Scope nat_scope.

(** C49: on any heap [h], any number of dimensions and any extents, every
    element in range exists in fresh memory and holds -1; different elements have
    different addresses; the memory that existed before is untouched. *)
Theorem C49_integer_array : forall dims (h : heap Z), dims <> [] ->
  exists h' p, AllocateIntegerArray dims h = Ok (h', p)
    /\ (forall idx, Forall2 (fun n i => i < n) dims idx -> exists a, address dims h' p idx = Ok a /\ length h <= fst a /\ read_at h' a = Ok (-1)%Z)
    /\ (forall idx idx', Forall2 (fun n i => i < n) dims idx -> Forall2 (fun n i => i < n) dims idx' ->
          address dims h' p idx = address dims h' p idx' -> idx = idx')
    /\ (forall a, a < length h -> nth_error h' a = nth_error h a).
Proof. exact integer_array_proof. Qed.

Theorem C49_real_array : forall dims (h : heap R), dims <> [] ->
  exists h' p, AllocateRealArray dims h = Ok (h', p)
    /\ (forall idx, Forall2 (fun n i => i < n) dims idx -> exists a, address dims h' p idx = Ok a /\ length h <= fst a /\ read_at h' a = Ok 0%R)
    /\ (forall idx idx', Forall2 (fun n i => i < n) dims idx -> Forall2 (fun n i => i < n) dims idx' ->
          address dims h' p idx = address dims h' p idx' -> idx = idx')
    /\ (forall a, a < length h -> nth_error h' a = nth_error h a).
Proof. exact real_array_proof. Qed.

(** Deallocating frees every block of the array exactly once (a second free is
    undefined behaviour in the model) and nothing else. *)
Theorem C49_integer_array_freed : forall dims (h : heap Z), dims <> [] ->
  exists h' p h'', AllocateIntegerArray dims h = Ok (h', p) /\ deallocate dims h' p = Ok h'' /\ length h'' = length h'
    /\ (forall a, a < length h -> nth_error h'' a = nth_error h a)
    /\ (forall a, length h <= a < length h'' -> nth_error h'' a = Some None).
Proof. exact integer_array_freed_proof. Qed.

Theorem C49_real_array_freed : forall dims (h : heap R), dims <> [] ->
  exists h' p h'', AllocateRealArray dims h = Ok (h', p) /\ deallocate dims h' p = Ok h'' /\ length h'' = length h'
    /\ (forall a, a < length h -> nth_error h'' a = nth_error h a)
    /\ (forall a, length h <= a < length h'' -> nth_error h'' a = Some None).
Proof. exact real_array_freed_proof. Qed.

Example C49_example :
  match AllocateIntegerArray [2; 3] [] with
  | Ok (h, p) => address [2; 3] h p [1; 2] = Ok (2, 2) /\ read_at h (2, 2) = Ok (-1)%Z
      /\ deallocate [2; 3] h p = Ok [None; None; None]
  | _ => False
  end.
Proof. vm_compute. auto. Qed.
Example C49_example_empty : AllocateRealArray [0; 3] [] = Ok ([], None) /\ deallocate [0; 3] ([] : heap R) None = Ok [].
Proof. split; reflexivity. Qed.

Print Assumptions C49_integer_array.
Print Assumptions C49_real_array.
Print Assumptions C49_integer_array_freed.
Print Assumptions C49_real_array_freed.
