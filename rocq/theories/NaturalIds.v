(** Model of the natural numbers of cells and of the region numbers read from a file
    (SaveNaturalIDs, src/fv/share/tdymeshplex.c:604-713).

    [owned]: for each process the cells it owns, named by their place in the original
    mesh; [locals]: for each process the cells of its local vector, ghosts included.
    A vector is one array per process.  Integers are unbounded; the numbers go through
    PetscScalar, which is exact for numbers of cells. *)
From Coq Require Import List ZArith.
From Verif Require Import Prelude Arrays UGrid.
Import ListNotations.
Local Open Scope nat_scope.

(** VecGetLocalSize of a global vector, and MPI_Scan (inclusive). *)
Definition sizes (nf : nat) (owned : list (list nat)) : list nat := map (fun l => nf * length l) owned.
Fixpoint prefix_sums (acc : nat) (l : list nat) : list nat :=
  match l with [] => [] | n :: l => (acc + n) :: prefix_sums (acc + n) l end.

(** Lines 627-636; the divisions are those of integers. *)
Definition fill (nf size cum : nat) : list Z :=
  map (fun i => if i mod nf =? 0 then (Z.of_nat i + Z.of_nat (cum / nf) - Z.of_nat (size / nf))%Z else 0%Z) (seq 0 size).
Definition natural_vec (nf : nat) (owned : list (list nat)) : list (list Z) :=
  map (fun p => fill nf (fst p) (snd p)) (combine (sizes nf owned) (prefix_sums 0 (sizes nf owned))).

(** The process and the offset of entry [k] of a vector with the given local sizes. *)
Fixpoint locate (l : list nat) (k : nat) : option (nat * nat) :=
  match l with
  | [] => None
  | n :: l => if k <? n then Some (0, k) else match locate l (k - n) with Some (q, o) => Some (S q, o) | None => None end
  end.
Definition fetch (v : list (list Z)) (place : option (nat * nat)) : outcome Z :=
  match place with Some (q, o) => do a <- rd v q; rd a o | None => UB end.

(** DMPlexNaturalToGlobal: the natural vector is read at the places given by the layout
    of the global vectors of the mesh, whatever the layout of the vector passed. *)
Definition to_global (nf : nat) (owned : list (list nat)) (v : list (list Z)) : outcome (list (list Z)) :=
  mapM (fun l => do rows <- mapM (fun c => mapM (fun f => fetch v (locate (sizes nf owned) (c * nf + f))) (seq 0 nf)) l; Ok (concat rows)) owned.

(** DMGlobalToLocal: the value is taken from the owner of the cell. *)
Fixpoint position (c : nat) (l : list nat) : option nat :=
  match l with [] => None | x :: l => if c =? x then Some 0 else match position c l with Some k => Some (S k) | None => None end end.
Fixpoint owner (c : nat) (owned : list (list nat)) : option (nat * nat) :=
  match owned with
  | [] => None
  | l :: owned =>
    match position c l with
    | Some k => Some (0, k)
    | None => match owner c owned with Some (q, k) => Some (S q, k) | None => None end
    end
  end.
Definition to_local (nf : nat) (owned locals : list (list nat)) (g : list (list Z)) : outcome (list (list Z)) :=
  mapM (fun l => do rows <- mapM (fun c => mapM (fun f => fetch g (match owner c owned with Some (q, k) => Some (q, k * nf + f) | None => None end)) (seq 0 nf)) l; Ok (concat rows)) locals.

(** Lines 655-657 and 697-699. *)
Definition first_field (nf : nat) (v : list Z) : outcome (list Z) := mapM (fun i => rd v (i * nf)) (seq 0 (length v / nf)).

(** Lines 637-658 and 684-701. *)
Definition per_cell (nf : nat) (owned locals : list (list nat)) (v : list (list Z)) : outcome (list (list Z)) :=
  do g <- to_global nf owned v;
  do l <- to_local nf owned locals g;
  mapM (first_field nf) l.

Definition natural_ids (nf : nat) (owned locals : list (list nat)) : outcome (list (list Z)) :=
  per_cell nf owned locals (natural_vec nf owned).

(** Lines 674-680: VecLoad splits the numbers of the file as PETSC_DECIDE does. *)
Definition decided (n np : nat) : list nat := map (fun r => n / np + (if r <? n mod np then 1 else 0)) (seq 0 np).
Fixpoint split (l : list nat) (v : list Z) : list (list Z) :=
  match l with [] => [] | n :: l => firstn n v :: split l (skipn n v) end.
Definition region_ids (nf : nat) (owned locals : list (list nat)) (file : list Z) : outcome (list (list Z)) :=
  per_cell nf owned locals (split (decided (length file) (length owned)) file).
