(** Model of the index sets and vector scatters of src/fv/share/tdyugdm.c, of
    the order conversions in src/tdydiscretization.c, and of checkpoints
    (src/tdyio.c) read back as initial conditions.

    Only meshes managed by TDycore itself (TDYCORE_DM_TYPE) are modelled; for
    DMPlex meshes the conversions are PETSc's.  A VecScatter is represented by the
    list of (source, target) positions of all processes, which is what PETSc
    documents it to copy; the order of the copies does not matter in the theorems.
    A distributed vector is the concatenation of its parts, its layout being the
    one of the global vector. *)
From Coq Require Import List Arith ZArith Lia Bool.
From Verif Require Import Prelude Arrays UGrid.
Import ListNotations.

(** ISCreateBlock with block size [ndof], seen through ISGetIndices. *)
Definition block_is (ndof : nat) (idx : list nat) : list nat :=
  flat_map (fun b => map (fun k => b * ndof + k) (seq 0 ndof)) idx.

(** VecScatterBegin/End with INSERT_VALUES. *)
Definition scatter {A} (pairs : list (nat * nat)) (x y : list A) : outcome (list A) :=
  for_ (length pairs) (fun k y =>
    do ft <- rd pairs k; do v <- rd x (fst ft); wr y (snd ft) v) y.
(** SCATTER_REVERSE. *)
Definition flip (pairs : list (nat * nat)) : list (nat * nat) := map (fun ft => (snd ft, fst ft)) pairs.

(** CreateLocalOrderIS, tdyugdm.c:140-173, and CreatePetscOrderIS, 181-221, for
    the process that owns [nl] cells from [off] on. *)
Definition is_local_local (ndof nl : nat) : list nat := block_is ndof (seq 0 nl).
Definition is_ghosted_local (ndof ng : nat) : list nat := block_is ndof (seq 0 ng).
Definition is_local_petsc (ndof off nl : nat) : list nat := block_is ndof (map (fun i => i + off) (seq 0 nl)).
Definition is_ghosted_petsc (ndof off nl : nat) (ghosts : list nat) : list nat :=
  block_is ndof (map (fun i => i + off) (seq 0 nl) ++ ghosts).
(** CreateNaturalOrderIS, 229-259: AOPetscToApplication of the owned numbers. *)
Definition is_local_natural (ndof off nl : nat) (ao : list Z) : list nat :=
  block_is ndof (map (fun i => Z.to_nat (petsc_to_app ao (i + off))) (seq 0 nl)).

(** CreateVecScatters, 271-330. *)
Definition global_natural_pairs (ndof : nat) (ao : list Z) (ranks : list (nat * nat)) : list (nat * nat) :=
  flat_map (fun r => combine (is_local_petsc ndof (fst r) (snd r)) (is_local_natural ndof (fst r) (snd r) ao)) ranks.
(** One process. *)
Definition global_local_pairs (ndof off nl : nat) (ghosts : list nat) : list (nat * nat) :=
  combine (is_ghosted_petsc ndof off nl ghosts) (is_ghosted_local ndof (nl + length ghosts)).
Definition local_global_pairs (ndof off nl : nat) : list (nat * nat) :=
  combine (is_local_local ndof nl) (is_local_petsc ndof off nl).

(** TDyDiscretizationGlobalToNatural, tdydiscretization.c:190-222, and
    TDyDiscretizationNaturalToGlobal, 250-282. *)
Definition global_to_natural {A} (ndof : nat) (ao : list Z) (nls : list nat) (x y : list A) : outcome (list A) :=
  scatter (global_natural_pairs ndof ao (ranks_from 0 nls)) x y.
Definition natural_to_global {A} (ndof : nat) (ao : list Z) (nls : list nat) (x y : list A) : outcome (list A) :=
  scatter (flip (global_natural_pairs ndof ao (ranks_from 0 nls))) x y.

(** TDyDiscretizationGlobalToLocal, 225-242, on one process, and the local to
    global direction of all processes ([locals]: per process its offset, number
    of owned cells and local vector). *)
Definition global_to_local {A} (ndof off nl : nat) (ghosts : list nat) (x y : list A) : outcome (list A) :=
  scatter (global_local_pairs ndof off nl ghosts) x y.
Fixpoint local_to_global {A} (ndof : nat) (locals : list (nat * nat * list A)) (g : list A) : outcome (list A) :=
  match locals with
  | [] => Ok g
  | (off, nl, x) :: ls => do g <- scatter (local_global_pairs ndof off nl) x g; local_to_global ndof ls g
  end.
(** TDyDiscretizationNaturaltoLocal, 290-308, on one process; [tmp] is the new
    global vector. *)
Definition natural_to_local {A} (ndof : nat) (ao : list Z) (nls : list nat) (off nl : nat) (ghosts : list nat)
  (x tmp y : list A) : outcome (list A) :=
  do g <- natural_to_global ndof ao nls x tmp; global_to_local ndof off nl ghosts g y.

(** The solution vectors of a run. *)
Record solution (A : Type) := Solution { soln : list A; soln_prev : list A; soln_loc : list (list A) }.
Arguments soln {A}. Arguments soln_prev {A}. Arguments soln_loc {A}. Arguments Solution {A}.

(** TDySetInitialCondition, tdycore.c:1625-1632; [procs]: per process its offset,
    number of owned cells and ghost cells. *)
Definition SetInitialCondition {A} (ndof : nat) (ao : list Z) (nls : list nat) (procs : list (nat * nat * list nat))
  (init tmp : list A) (s : solution A) : outcome (solution A) :=
  do a <- natural_to_global ndof ao nls init (soln s);
  do b <- natural_to_global ndof ao nls init (soln_prev s);
  do ls <- mapM (fun pl => let '(off, nl, gs, l) := pl in natural_to_local ndof ao nls off nl gs init tmp l)
                (combine procs (soln_loc s));
  Ok (Solution a b ls).

(** TDyIOOutputCheckpoint, tdyio.c:339-359: what is written to the file. *)
Definition OutputCheckpoint {A} (ndof : nat) (ao : list Z) (nls : list nat) (s : solution A) (tmp : list A) : outcome (list A) :=
  global_to_natural ndof ao nls (soln_prev s) tmp.

(** The local-to-global numbers of the mesh, tdymeshcustom.c:36-44: the first
    [ng] indices of the blocked index set. *)
Definition nG2A (ndof off nl : nat) (ghosts : list nat) : outcome (list nat) :=
  let ng := nl + length ghosts in
  for_ ng (fun ic a => do x <- rd (is_ghosted_petsc ndof off nl ghosts) ic; wr a ic x) (repeat 0 ng).
