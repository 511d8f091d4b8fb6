(** What the theorems about the H(div) basis functions say. *)
From Coq Require Import Reals List Arith Bool.
From Coquelicot Require Import Coquelicot.
From Verif Require Import Prelude SpecFvtpf.
Import ListNotations.
Local Open Scope R_scope.

(** The cell [-1,1]^dim has the corners 0 .. 2^dim - 1: bit d of the number tells on
    which side of direction d the corner lies. *)
Definition side (v d : nat) : R := if Nat.testbit v d then 1 else -1.
Fixpoint product (f : nat -> R) (n : nat) : R := match n with O => 1 | S n => product f n * f n end.
(** On a face normal to direction d: the multilinear function that is 1 at corner v
    and 0 at the other corners of the face. *)
Definition corner_function (dim v d : nat) (x : nat -> R) : R :=
  product (fun e => if (e =? d)%nat then 1 else (1 + side v e * x e) / 2) dim.

(** [n] is the vector area of the image of a face of the cell under a map with
    Jacobian matrix [DF] (row-major) and determinant [J]; the face is normal to
    direction [e], on side [s], and has unit area: n = J DF^-T s e. *)
Definition vector_area (dim : nat) (DF : list R) (J : R) (e : nat) (s : R) (n : nat -> R) : Prop :=
  forall i, (i < dim)%nat -> total (fun k => nth (k * dim + i) DF 0 * n k) dim = J * (if (i =? e)%nat then s else 0).

(** Vector [k] of the function of corner [v] and direction [d] in the array [B]. *)
Definition component (dim : nat) (B : list R) (v d k : nat) : R := nth ((v * dim + d) * dim + k) B 0.
(** The flux of function (v,d) through a face: that of the corner function of v on the
    face of v normal to d; zero on all other faces. *)
Definition right_fluxes (dim : nat) (x DF : list R) (J : R) (B : list R) : Prop :=
  forall v d e s n, (v < 2 ^ dim)%nat -> (d < dim)%nat -> (e < dim)%nat -> s = 1 \/ s = -1 ->
    nth e x 0 = s -> vector_area dim DF J e s n ->
    (d = e /\ side v d = s -> total (fun k => component dim B v d k * n k) dim = corner_function dim v d (fun i => nth i x 0))
    /\ (d <> e \/ side v d <> s -> total (fun k => component dim B v d k * n k) dim = 0).

(** The point [x] with coordinate [i] replaced. *)
Fixpoint replaced (x : list R) (i : nat) (t : R) : list R :=
  match x, i with
  | [], _ => []
  | _ :: x, O => t :: x
  | a :: x, S i => a :: replaced x i t
  end.
Definition inverse_of (dim : nat) (M N : list R) : Prop :=
  forall i j, (i < dim)%nat -> (j < dim)%nat ->
    total (fun k => nth (i * dim + k) M 0 * nth (k * dim + j) N 0) dim = if (i =? j)%nat then 1 else 0.
(** Divergence of function (v,d) in the mapped cell: the partial derivatives on the
    reference cell, [D k i] of component k in direction i, times DF^-1. *)
Definition divergence (dim : nat) (basis : list R -> list R) (x DFinv : list R) (v d : nat) (y : R) : Prop :=
  exists D : nat -> nat -> R,
    (forall k i, (k < dim)%nat -> (i < dim)%nat ->
       is_derive (fun t => component dim (basis (replaced x i t)) v d k) (nth i x 0) (D k i))
    /\ y = total (fun k => total (fun i => D k i * nth (i * dim + k) DFinv 0) dim) dim.
