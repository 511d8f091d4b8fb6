(** Model of the multi-dimensional work arrays of src/tdymemory.c.
    The heap is a list of blocks; an address is the block's position.  [V] is the
    element type (PetscInt or PetscReal), [zero] its calloc'ed value.  PetscCalloc1
    already multiplies by the element size, so TDyAlloc(n*sizeof(T)) reserves more
    than n elements; the model gives every block exactly n, so that the theorems do
    not rely on the surplus. *)
From Coq Require Import Reals ZArith Bool List Arith.
From Verif Require Import Prelude Arrays.
Import ListNotations.
Local Open Scope nat_scope.

Section Memory.
Context {V : Type}.
Variable zero : V.

Definition pointer := option nat.                      (* None: NULL *)
Inductive block := Data (d : list V) | Pointers (p : list pointer).
(** [None]: freed. *)
Definition heap := list (option block).

(** TDyAlloc (include/private/tdymemoryimpl.h) is PetscCalloc1: zeroed memory,
    NULL for size 0. *)
Definition alloc (h : heap) (n : nat) (b : block) : heap * pointer :=
  if n =? 0 then (h, None) else (h ++ [Some b], Some (length h)).

Definition deref (h : heap) (p : pointer) : outcome block :=
  match p with
  | None => UB
  | Some a => match nth_error h a with Some (Some b) => Ok b | _ => UB end
  end.
Definition read_pointer (h : heap) (p : pointer) (i : nat) : outcome pointer :=
  do b <- deref h p; match b with Pointers l => rd l i | Data _ => UB end.
Definition write_pointer (h : heap) (p : pointer) (i : nat) (q : pointer) : outcome heap :=
  do b <- deref h p;
  match b, p with
  | Pointers l, Some a => do l' <- wr l i q; Ok (upd h a (Some (Pointers l')))
  | _, _ => UB
  end.
Definition write_data (h : heap) (p : pointer) (i : nat) (v : V) : outcome heap :=
  do b <- deref h p;
  match b, p with
  | Data l, Some a => do l' <- wr l i v; Ok (upd h a (Some (Data l')))
  | _, _ => UB
  end.

(** TDyFree (lines 5-7): PetscFree; NULL is ignored. *)
Definition free (h : heap) (p : pointer) : outcome heap :=
  match p with
  | None => Ok h
  | Some a => match nth_error h a with Some (Some _) => Ok (upd h a None) | _ => UB end
  end.

(** TDyAllocate_*Array_1D/2D/3D/4D (lines 117-202), by recursion on the extents:
    the innermost level allocates data, the others an array of pointers filled in
    a loop. *)
Fixpoint allocate (dims : list nat) (h : heap) : outcome (heap * pointer) :=
  match dims with
  | [] => UB
  | [n] => Ok (alloc h n (Data (repeat zero n)))
  | n :: rest =>
    let '(h, p) := alloc h n (Pointers (repeat None n)) in
    do h <- for_ n (fun i h => do hq <- allocate rest h; write_pointer (fst hq) p i (snd hq)) h;
    Ok (h, p)
  end.

(** TDyInitialize_*Array_1D/2D/3D/4D (lines 36-114). *)
Fixpoint initialize (dims : list nat) (h : heap) (p : pointer) (v : V) : outcome heap :=
  match dims with
  | [] => UB
  | [n] => for_ n (fun i h => write_data h p i v) h
  | n :: rest => for_ n (fun i h => do q <- read_pointer h p i; initialize rest h q v) h
  end.

(** TDyDeallocate_*Array_1D/2D/3D/4D (lines 205-266). *)
Fixpoint deallocate (dims : list nat) (h : heap) (p : pointer) : outcome heap :=
  match dims with
  | [] => UB
  | [n] => free h p
  | n :: rest =>
    do h <- for_ n (fun i h => do q <- read_pointer h p i; deallocate rest h q) h;
    free h p
  end.

(** The element a[i][j]...: its address (block, offset). *)
Fixpoint address (dims : list nat) (h : heap) (p : pointer) (idx : list nat) : outcome (nat * nat) :=
  match dims, idx with
  | [n], [i] => do b <- deref h p;
                match b, p with Data l, Some a => if i <? length l then Ok (a, i) else UB | _, _ => UB end
  | n :: rest, i :: idx => do q <- read_pointer h p i; address rest h q idx
  | _, _ => UB
  end.
Definition read_at (h : heap) (a : nat * nat) : outcome V :=
  do b <- deref h (Some (fst a)); match b with Data l => rd l (snd a) | Pointers _ => UB end.
End Memory.

(** TDyAllocate_IntegerArray_1D/2D (lines 120-141): initialised to -1.
    TDyAllocate_RealArray_1D/2D/3D (lines 144-178): left as calloc'ed.
    TDyAllocate_RealArray_4D (lines 182-201): initialised to 0. *)
Definition AllocateIntegerArray (dims : list nat) (h : list (option (@block Z))) : outcome (list (option (@block Z)) * pointer) :=
  do hp <- allocate 0%Z dims h; do h <- initialize dims (fst hp) (snd hp) (-1)%Z; Ok (h, snd hp).
Definition AllocateRealArray (dims : list nat) (h : list (option (@block R))) : outcome (list (option (@block R)) * pointer) :=
  do hp <- allocate 0%R dims h;
  if length dims =? 4 then do h <- initialize dims (fst hp) (snd hp) 0%R; Ok (h, snd hp) else Ok hp.
Arguments block : clear implicits.
Arguments heap : clear implicits.
