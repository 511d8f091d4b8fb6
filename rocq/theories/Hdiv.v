(** Model of the H(div) basis functions and of the reference quadrature of the finite
    element discretisations, src/fe/tdyfe.c:149-314.

    The writes B[k] = ... are the entries of a list in the same order.  A quotient
    by J = 0 is not a number. *)
From Coq Require Import Reals List Arith.
From Verif Require Import Prelude Arrays.
Import ListNotations.
Local Open Scope R_scope.

(** SetQuadrature, lines 149-183: points and weights; other dimensions leave the
    arrays zero-filled (TDyAlloc). *)
Definition quadrature_points (dim : nat) : list R :=
  match dim with
  | 1%nat => [-1; 1]
  | 2%nat => [-1; -1;  1; -1;  -1; 1;  1; 1]
  | 3%nat => [-1; -1; -1;  1; -1; -1;  -1; 1; -1;  1; 1; -1;
              -1; -1; 1;  1; -1; 1;  -1; 1; 1;  1; 1; 1]
  | _ => repeat 0 (2 ^ dim * dim)
  end.
Definition quadrature_weights (dim : nat) : list R :=
  match dim with
  | 1%nat | 2%nat | 3%nat => repeat 1 (2 ^ dim)
  | _ => repeat 0 (2 ^ dim)
  end.

(** Piola, lines 188-200: u <- DF u / J, with DF in row-major order. *)
Definition Piola (dim : nat) (DF : list R) (J : R) (u : list R) : outcome (list fl) :=
  do v <- for_ dim (fun i v =>
            do a <- for_ dim (fun j a => do m <- rd DF (i * dim + j); do x <- rd u j; Ok (a + m * x)) 0;
            Ok (v ++ [a])) [];
  Ok (map (fun y => fdiv y J) v).
(** The loop over the functions, lines 232 and 313. *)
Definition transform (dim n : nat) (DF : list R) (J : R) (B : list R) : outcome (list fl) :=
  for_ n (fun i out => do u <- Piola dim DF J (firstn dim (skipn (dim * i) B)); Ok (out ++ u)) [].

(** HdivBasisQuad, lines 212-234. *)
Definition quad_reference (x0 x1 : R) : list R := [
  (-x0*x1 + x0 + x1 - 1) * (1/4);
  (x1*x1 - 1) * (1/8);
  (x0*x0 - 1) * (1/8);
  (-x0*x1 + x0 + x1 - 1) * (1/4);
  (-x0*x1 + x0 - x1 + 1) * (1/4);
  (x1*x1 - 1) * (1/8);
  (-x0*x0 + 1) * (1/8);
  (x0*x1 - x0 + x1 - 1) * (1/4);
  (x0*x1 + x0 - x1 - 1) * (1/4);
  (-x1*x1 + 1) * (1/8);
  (x0*x0 - 1) * (1/8);
  (-x0*x1 - x0 + x1 + 1) * (1/4);
  (x0*x1 + x0 + x1 + 1) * (1/4);
  (-x1*x1 + 1) * (1/8);
  (-x0*x0 + 1) * (1/8);
  (x0*x1 + x0 + x1 + 1) * (1/4)
].
Definition HdivBasisQuad (x DF : list R) (J : R) : outcome (list fl) :=
  do x0 <- rd x 0; do x1 <- rd x 1;
  transform 2 8 DF J (quad_reference x0 x1).

(** HdivBasisHex, lines 236-315. *)
Definition hex_reference (x0 x1 x2 : R) : list R := [
  (x0*x1*x2 - x0*x1 - x0*x2 + x0 - x1*x2 + x1 + x2 - 1) * (1/8);
  (x1*x1 - 1) * (1/16);
  (-x1*x2*x2 + x1 + x2*x2 - 1) * (1/16);
  (-x0*x0*x2 + x0*x0 + x2 - 1) * (1/16);
  (x0*x1*x2 - x0*x1 - x0*x2 + x0 - x1*x2 + x1 + x2 - 1) * (1/8);
  (x2*x2 - 1) * (1/16);
  (x0*x0 - 1) * (1/16);
  (-x0*x1*x1 + x0 + x1*x1 - 1) * (1/16);
  (x0*x1*x2 - x0*x1 - x0*x2 + x0 - x1*x2 + x1 + x2 - 1) * (1/8);
  (x0*x1*x2 - x0*x1 - x0*x2 + x0 + x1*x2 - x1 - x2 + 1) * (1/8);
  (x1*x1 - 1) * (1/16);
  (-x1*x2*x2 + x1 + x2*x2 - 1) * (1/16);
  (x0*x0*x2 - x0*x0 - x2 + 1) * (1/16);
  (-x0*x1*x2 + x0*x1 + x0*x2 - x0 - x1*x2 + x1 + x2 - 1) * (1/8);
  (x2*x2 - 1) * (1/16);
  (-x0*x0 + 1) * (1/16);
  (x0*x1*x1 - x0 + x1*x1 - 1) * (1/16);
  (-x0*x1*x2 + x0*x1 + x0*x2 - x0 - x1*x2 + x1 + x2 - 1) * (1/8);
  (-x0*x1*x2 + x0*x1 - x0*x2 + x0 + x1*x2 - x1 + x2 - 1) * (1/8);
  (-x1*x1 + 1) * (1/16);
  (x1*x2*x2 - x1 + x2*x2 - 1) * (1/16);
  (-x0*x0*x2 + x0*x0 + x2 - 1) * (1/16);
  (x0*x1*x2 - x0*x1 + x0*x2 - x0 - x1*x2 + x1 - x2 + 1) * (1/8);
  (x2*x2 - 1) * (1/16);
  (x0*x0 - 1) * (1/16);
  (x0*x1*x1 - x0 - x1*x1 + 1) * (1/16);
  (-x0*x1*x2 + x0*x1 - x0*x2 + x0 + x1*x2 - x1 + x2 - 1) * (1/8);
  (-x0*x1*x2 + x0*x1 - x0*x2 + x0 - x1*x2 + x1 - x2 + 1) * (1/8);
  (-x1*x1 + 1) * (1/16);
  (x1*x2*x2 - x1 + x2*x2 - 1) * (1/16);
  (x0*x0*x2 - x0*x0 - x2 + 1) * (1/16);
  (-x0*x1*x2 + x0*x1 - x0*x2 + x0 - x1*x2 + x1 - x2 + 1) * (1/8);
  (x2*x2 - 1) * (1/16);
  (-x0*x0 + 1) * (1/16);
  (-x0*x1*x1 + x0 - x1*x1 + 1) * (1/16);
  (x0*x1*x2 - x0*x1 + x0*x2 - x0 + x1*x2 - x1 + x2 - 1) * (1/8);
  (-x0*x1*x2 - x0*x1 + x0*x2 + x0 + x1*x2 + x1 - x2 - 1) * (1/8);
  (x1*x1 - 1) * (1/16);
  (x1*x2*x2 - x1 - x2*x2 + 1) * (1/16);
  (x0*x0*x2 + x0*x0 - x2 - 1) * (1/16);
  (-x0*x1*x2 - x0*x1 + x0*x2 + x0 + x1*x2 + x1 - x2 - 1) * (1/8);
  (-x2*x2 + 1) * (1/16);
  (x0*x0 - 1) * (1/16);
  (-x0*x1*x1 + x0 + x1*x1 - 1) * (1/16);
  (x0*x1*x2 + x0*x1 - x0*x2 - x0 - x1*x2 - x1 + x2 + 1) * (1/8);
  (-x0*x1*x2 - x0*x1 + x0*x2 + x0 - x1*x2 - x1 + x2 + 1) * (1/8);
  (x1*x1 - 1) * (1/16);
  (x1*x2*x2 - x1 - x2*x2 + 1) * (1/16);
  (-x0*x0*x2 - x0*x0 + x2 + 1) * (1/16);
  (x0*x1*x2 + x0*x1 - x0*x2 - x0 + x1*x2 + x1 - x2 - 1) * (1/8);
  (-x2*x2 + 1) * (1/16);
  (-x0*x0 + 1) * (1/16);
  (x0*x1*x1 - x0 + x1*x1 - 1) * (1/16);
  (-x0*x1*x2 - x0*x1 + x0*x2 + x0 - x1*x2 - x1 + x2 + 1) * (1/8);
  (x0*x1*x2 + x0*x1 + x0*x2 + x0 - x1*x2 - x1 - x2 - 1) * (1/8);
  (-x1*x1 + 1) * (1/16);
  (-x1*x2*x2 + x1 - x2*x2 + 1) * (1/16);
  (x0*x0*x2 + x0*x0 - x2 - 1) * (1/16);
  (-x0*x1*x2 - x0*x1 - x0*x2 - x0 + x1*x2 + x1 + x2 + 1) * (1/8);
  (-x2*x2 + 1) * (1/16);
  (x0*x0 - 1) * (1/16);
  (x0*x1*x1 - x0 - x1*x1 + 1) * (1/16);
  (-x0*x1*x2 - x0*x1 - x0*x2 - x0 + x1*x2 + x1 + x2 + 1) * (1/8);
  (x0*x1*x2 + x0*x1 + x0*x2 + x0 + x1*x2 + x1 + x2 + 1) * (1/8);
  (-x1*x1 + 1) * (1/16);
  (-x1*x2*x2 + x1 - x2*x2 + 1) * (1/16);
  (-x0*x0*x2 - x0*x0 + x2 + 1) * (1/16);
  (x0*x1*x2 + x0*x1 + x0*x2 + x0 + x1*x2 + x1 + x2 + 1) * (1/8);
  (-x2*x2 + 1) * (1/16);
  (-x0*x0 + 1) * (1/16);
  (-x0*x1*x1 + x0 - x1*x1 + 1) * (1/16);
  (x0*x1*x2 + x0*x1 + x0*x2 + x0 + x1*x2 + x1 + x2 + 1) * (1/8)
].
Definition HdivBasisHex (x DF : list R) (J : R) : outcome (list fl) :=
  do x0 <- rd x 0; do x1 <- rd x 1; do x2 <- rd x 2;
  transform 3 24 DF J (hex_reference x0 x1 x2).
