(** Model of the loops over all vertices of the Wheeler-Yotov method, src/fe/tdywy.c:
    the assembly of the matrix and of the right hand side (TDyWYComputeSystem, lines
    679-817) and the storing of the recovered velocities (TDyWYRecoverVelocity, lines
    858-965).  The systems around the vertices are those of Wy.v.

    Simplifications: [star v] is the closure of vertex [v] (the points in it, in
    order); the results of FormStencil and RecoverVelocity at vertex [v] are given as
    [C v], [D v] and [Z v] and are tied to the local systems by the contracts of
    Wy.v.  MatSetValue and VecSetValue with ADD_VALUES are recorded as the list of
    the calls; the entry of the assembled matrix is the sum of its calls.  [gid c] is
    the number DMPlexGetPointGlobal gives: that of the cell if the process owns it,
    otherwise minus that number minus one. *)
From Coq Require Import Reals List ZArith Bool Arith.
From Verif Require Import Prelude Arrays Mpfao Wy.
Import ListNotations.
Local Open Scope R_scope.

(** Line 671: 1e4*PETSC_MACHINE_EPSILON. *)
Definition tol : R := 10000 * / 2 ^ 52.
(** Lines 792-793: entry [k] of C (column-major). *)
Definition maxC (nB : nat) (C : nat -> nat -> R) : R :=
  fold_left (fun m k => Rmax m (Rabs (C (k mod nB)%nat (k / nB)%nat))) (seq 0 (nB * nB)) 0.
(** Line 799. *)
Definition skipped (nB : nat) (C : nat -> nat -> R) (c q : nat) : bool :=
  if Rlt_dec (Rabs (C c q)) (tol * maxC nB C) then true else false.
(** Lines 800-801. *)
Definition column (g : Z) : Z := if (g <? 0)%Z then (- g - 1)%Z else g.
(** Lines 794-804: the calls for one vertex. *)
Definition mat_calls (gid : nat -> Z) (bmap : list nat) (C : nat -> nat -> R) : list (Z * Z * R) :=
  let nB := length bmap in
  flat_map (fun c =>
    let g := gid (nth c bmap O) in
    if (g <? 0)%Z then [] else
    flat_map (fun q => if skipped nB C c q then [] else [(g, column (gid (nth q bmap O)), C c q)]) (seq 0 nB)) (seq 0 nB).
Definition vec_calls (gid : nat -> Z) (bmap : list nat) (D : nat -> R) : list (Z * R) :=
  flat_map (fun c => let g := gid (nth c bmap O) in if (g <? 0)%Z then [] else [(g, D c)]) (seq 0 (length bmap)).
(** Lines 808-814. *)
Definition forcing_calls (gid : nat -> Z) (ncells : nat) (force : nat -> R) : list (Z * R) :=
  flat_map (fun c => if (gid c <? 0)%Z then [] else [(gid c, force c)]) (seq 0 ncells).
(** TDyWYComputeSystem. *)
Definition compute_system (m : mesh) (gid : nat -> Z) (star : nat -> list nat) (vs : list nat)
    (C : nat -> nat -> nat -> R) (D : nat -> nat -> R) (force : nat -> R) : outcome (list (Z * Z * R) * list (Z * R)) :=
  do s <- iter vs (fun v s =>
    do _ <- vertex_system m (star v) v;
    Ok (fst s ++ mat_calls gid (cells_of m (star v)) (C v), snd s ++ vec_calls gid (cells_of m (star v)) (D v))) ([], []);
  Ok (fst s, snd s ++ forcing_calls gid (length (elements m)) force).
(** Lines 955-960: the first of the [nv] vertices of the face that is [v]. *)
Fixpoint find_vertex (fmap : list nat) (base v n offset : nat) : outcome (option nat) :=
  match n with
  | O => Ok None
  | S n => do w <- rd fmap (base + offset); if (v =? w)%nat then Ok (Some offset) else find_vertex fmap base v n (S offset)
  end.
(** Lines 953-962. *)
Definition store (m : mesh) (nv : nat) (fmap : list nat) (v : nat) (amap : list nat) (F : nat -> R) (vel : list R) : outcome (list R) :=
  for_ (length amap) (fun q vel =>
    do f <- rd amap q;
    if (f <? fStart m)%nat then UB else
    do o <- find_vertex fmap (nv * (f - fStart m)) v nv 0;
    match o with
    | Some o => wr vel (nv * (f - fStart m) + o) (F q)
    | None => Ok vel
    end) vel.
(** TDyWYRecoverVelocity. *)
Definition recover (m : mesh) (nv : nat) (fmap : list nat) (P : list R) (star : nat -> list nat) (vs : list nat)
    (Z : nat -> nat -> R) (vel : list R) : outcome (list R) :=
  iter vs (fun v vel =>
    do _ <- velocity_system m P (star v) v;
    store m nv fmap v (faces_of m (star v)) (Z v) vel) vel.
