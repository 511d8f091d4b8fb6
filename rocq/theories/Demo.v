(** Model of the test problems with known solution of demo/steady/steady.c (and the forcing
    of demo/transient/transient.c): permeability, pressure, velocity and forcing at the
    first [n] of a list of points, as the library calls them, the selection of the
    functions in main, and the deformations of the mesh.

    An entry of an output array is [None] before it is set.  The arrays K of the size 4n
    or 9n are local and not set before the permeability function runs.  f[i] += ... is
    written as one sum. *)
From Coq Require Import Reals List Arith.
From Verif Require Import Prelude Arrays.
Import ListNotations.
Local Open Scope R_scope.

(** A function of n, the coordinates and the output array. *)
Definition prog := nat -> list R -> list fl -> outcome (list fl).

Definition xy (x : list R) (i : nat) : outcome (R * R) := do a <- rd x (2 * i); do b <- rd x (2 * i + 1); Ok (a, b).
Definition xyz (x : list R) (i : nat) : outcome (R * R * R) :=
  do a <- rd x (3 * i); do b <- rd x (3 * i + 1); do c <- rd x (3 * i + 2); Ok (a, b, c).
Fixpoint wrs (out : list fl) (i : nat) (l : list R) : outcome (list fl) :=
  match l with
  | [] => Ok out
  | a :: l => do out <- wr out i (Some a); wrs out (S i) l
  end.
(** Reading K[i], an error if it has not been set. *)
Definition get (K : list fl) (i : nat) : outcome R := do a <- rd K i; match a with Some a => Ok a | None => UB end.
Definition k4 (K : list fl) (i : nat) : outcome (R * R * R * R) :=
  do a <- get K (4 * i); do b <- get K (4 * i + 1); do c <- get K (4 * i + 2); do d <- get K (4 * i + 3); Ok (a, b, c, d).
Definition k9 (K : list fl) (i : nat) : outcome (R * R * R * R * R * R * R * R * R) :=
  do a <- get K (9 * i); do b <- get K (9 * i + 1); do c <- get K (9 * i + 2);
  do d <- get K (9 * i + 3); do e <- get K (9 * i + 4); do f <- get K (9 * i + 5);
  do g <- get K (9 * i + 6); do h <- get K (9 * i + 7); do j <- get K (9 * i + 8); Ok (a, b, c, d, e, f, g, h, j).

(** Lines 6-21. *)
Definition PermTest2D : prog := fun n x K => for_ n (fun i K => wrs K (4 * i) [5; 1; 1; 2]) K.
Definition PermTest3D : prog := fun n x K => for_ n (fun i K => wrs K (9 * i) [4321/1000; 1; 1/2; 1; 1234/1000; 1; 1/2; 1; 11/10]) K.

(** Lines 25-43. *)
Definition PressureConstant : prog := fun n x p => for_ n (fun i p => wr p i (Some (314/100))) p.
Definition VelocityConstant : prog := fun n x v => for_ n (fun i v => wrs v (3 * i) [0; 0; 0]) v.
Definition ForcingConstant : prog := fun n x f => for_ n (fun i f => wr f i (Some 0)) f.

(** Lines 47-72. *)
Definition PressureQuadratic2D : prog := fun n x p => for_ n (fun i p =>
  do q <- xy x i; let '(X, Y) := q in wr p i (Some (314/100 + X*(1-X) + Y*(1-Y)))) p.
Definition VelocityQuadratic2D : prog := fun n x v =>
  do K <- PermTest2D n x (repeat None (4 * n));
  for_ n (fun i v => do q <- xy x i; let '(X, Y) := q in do k <- k4 K i; let '(k0, k1, k2, k3) := k in
    wrs v (2 * i) [- k0*(1-2*X) - k1*(1-2*Y); - k2*(1-2*X) - k3*(1-2*Y)]) v.
Definition ForcingQuadratic2D : prog := fun n x f =>
  do K <- PermTest2D n x (repeat None (4 * n));
  for_ n (fun i f => do k <- k4 K i; let '(k0, k1, k2, k3) := k in wr f i (Some (2*k0 + 2*k3))) f.

(** Lines 74-100. *)
Definition PressureQuadratic3D : prog := fun n x p => for_ n (fun i p =>
  do q <- xyz x i; let '(X, Y, Z) := q in wr p i (Some (314/100 + X*(1-X) + Y*(1-Y) + Z*(1-Z)))) p.
Definition VelocityQuadratic3D : prog := fun n x v =>
  do K <- PermTest3D n x (repeat None (9 * n));
  for_ n (fun i v => do q <- xyz x i; let '(X, Y, Z) := q in do k <- k9 K i; let '(k0, k1, k2, k3, k4, k5, k6, k7, k8) := k in
    wrs v (3 * i) [- k0*(1-2*X) - k1*(1-2*Y) - k2*(1-2*Z); - k3*(1-2*X) - k4*(1-2*Y) - k5*(1-2*Z); - k6*(1-2*X) - k7*(1-2*Y) - k8*(1-2*Z)]) v.
Definition ForcingQuadratic3D : prog := fun n x f =>
  do K <- PermTest3D n x (repeat None (9 * n));
  for_ n (fun i f => do k <- k9 K i; let '(k0, k1, k2, k3, k4, k5, k6, k7, k8) := k in wr f i (Some (2*(k0 + k3 + k8)))) f.

(** Lines 106-151. *)
Definition PermWheeler2006_1 : prog := fun n x K => for_ n (fun i K => wrs K (4 * i) [5; 1; 1; 2]) K.
Definition PressureWheeler2006_1 : prog := fun n x f => for_ n (fun i f =>
  do q <- xy x i; let '(X, Y) := q in wr f i (Some ((1-X)^4 + (1-Y)^3 * (1-X) + sin (1-Y) * cos (1-X)))) f.
Definition VelocityWheeler2006_1 : prog := fun n x v =>
  do K <- PermWheeler2006_1 n x (repeat None (4 * n));
  for_ n (fun i v => do q <- xy x i; let '(X, Y) := q in do k <- k4 K i; let '(k0, k1, k2, k3) := k in
    let vx := -4*(1-X)^3 + - (1-Y)^3 + sin (Y-1) * sin (X-1) in
    let vy := -3*(1-Y)^2*(1-X) + - cos (X-1) * cos (Y-1) in
    wrs v (2 * i) [- (k0*vx + k1*vy); - (k2*vx + k3*vy)]) v.
Definition ForcingWheeler2006_1 : prog := fun n x f =>
  do K <- PermWheeler2006_1 n x (repeat None (4 * n));
  for_ n (fun i f => do q <- xy x i; let '(X, Y) := q in do k <- k4 K i; let '(k0, k1, k2, k3) := k in
    wr f i (Some (- k0*(12*(1-X)^2 + sin (Y-1) * cos (X-1)) + - k1*(3*(1-Y)^2 + sin (X-1) * cos (Y-1))
      + - k2*(3*(1-Y)^2 + sin (X-1) * cos (Y-1)) + - k3*(-6*(1-X)*(Y-1) + sin (Y-1) * cos (X-1))))) f.

(** Lines 155-204. *)
Definition PermWheeler2006_2 : prog := fun n x K => for_ n (fun i K =>
  do q <- xy x i; let '(X, Y) := q in
  let b := 1 + sin (X*Y) in wrs K (4 * i) [4 + (X+2)^2 + Y^2; b; b; 2]) K.
Definition PressureWheeler2006_2 : prog := fun n x f => for_ n (fun i f =>
  do q <- xy x i; let '(X, Y) := q in
  let sx := sin (3*PI*X) in let sy := sin (3*PI*Y) in wr f i (Some (sx*sx*sy*sy))) f.
Definition VelocityWheeler2006_2 : prog := fun n x v => for_ n (fun i v =>
  do q <- xy x i; let '(X, Y) := q in
  let sx := sin (3*PI*X) in let sy := sin (3*PI*Y) in let cx := cos (3*PI*X) in let cy := cos (3*PI*Y) in
  wrs v (2 * i) [-6*PI*((sin (X*Y) + 1)*sx*cy + (Y*Y + (X+2)^2 + 4)*sy*cx)*sx*sy; -6*PI*((sin (X*Y) + 1)*sy*cx + 2*sx*cy)*sx*sy]) v.
Definition ForcingWheeler2006_2 : prog := fun n x f => for_ n (fun i f =>
  do q <- xy x i; let '(X, Y) := q in
  let sx := sin (3*PI*X) in let sy := sin (3*PI*Y) in let cx := cos (3*PI*X) in let cy := cos (3*PI*Y) in
  wr f i (Some ((-12*PI*(sin (X*Y) + 1)*sx*sy*cx*cy + 3*PI*(Y*Y + (X+2)^2 + 4)*sx*sx*sy*sy - 3*PI*(Y*Y + (X+2)^2 + 4)*sy*sy*cx*cx
    + 6*PI*sx*sx*sy*sy - 6*PI*sx*sx*cy*cy - X*sx*sy*sy*cx*cos (X*Y) - Y*sx*sx*sy*cy*cos (X*Y) - 2*(X+2)*sx*sy*sy*cx) * (6*PI)))) f.

(** Lines 210-263; the velocity goes to v[0] and v[1] for every point. *)
Definition PermWheeler2012_1 : prog := fun n x K => for_ n (fun i K => wrs K (4 * i) [2; 125/100; 125/100; 3]) K.
Definition PressureWheeler2012_1 : prog := PressureWheeler2006_2.
Definition VelocityWheeler2012_1 : prog := fun n x v =>
  do K <- PermWheeler2012_1 n x (repeat None (4 * n));
  for_ n (fun i v => do q <- xy x i; let '(X, Y) := q in do k <- k4 K i; let '(k0, k1, k2, k3) := k in
    let sx := sin (3*PI*X) in let sy := sin (3*PI*Y) in let cx := cos (3*PI*X) in let cy := cos (3*PI*Y) in
    let px := 6*PI*sx*sy*sy*cx in let py := 6*PI*sx*sx*sy*cy in
    wrs v 0 [- (k0*px + k1*py); - (k2*px + k3*py)]) v.
Definition ForcingWheeler2012_1 : prog := fun n x f =>
  do K <- PermWheeler2012_1 n x (repeat None (4 * n));
  for_ n (fun i f => do q <- xy x i; let '(X, Y) := q in do k <- k4 K i; let '(k0, k1, k2, k3) := k in
    let sx := sin (3*PI*X) in let sy := sin (3*PI*Y) in let cx := cos (3*PI*X) in let cy := cos (3*PI*Y) in
    wr f i (Some ((k0*sx*sx*sy*sy - k0*sy*sy*cx*cx - k1*(cos (6*PI*(X-Y)) - cos (6*PI*(X+Y))) * (25/100)
      - k2*(cos (6*PI*(X-Y)) - cos (6*PI*(X+Y))) * (25/100) + k3*sx*sx*sy*sy - k3*sx*sx*cy*cy) * (18*PI*PI)))) f.

(** Lines 267-336. *)
Definition PermWheeler2012_2 (alpha : R) : prog := fun n x K => for_ n (fun i K => wrs K (9 * i) [alpha; 1; 1; 1; 2; 1; 1; 1; 2]) K.
Definition PressureWheeler2012_2 : prog := fun n x f => for_ n (fun i f =>
  do q <- xyz x i; let '(X, Y, Z) := q in wr f i (Some (X*X*(Y*Y)*(Z*Z)*(X-1)^2*(Y-1)^2*(Z-1)^2))) f.
Definition VelocityWheeler2012_2 (alpha : R) : prog := fun n x v =>
  do K <- PermWheeler2012_2 alpha n x (repeat None (9 * n));
  for_ n (fun i v => do q <- xyz x i; let '(X, Y, Z) := q in do k <- k9 K i; let '(k0, k1, k2, k3, k4, k5, k6, k7, k8) := k in
    let a1 := 2*X*(X-1)*(2*X-1) in let b1 := 2*Y*(Y-1)*(2*Y-1) in let c1 := 2*Z*(Z-1)*(2*Z-1) in
    let px := a1*(Y*Y)*(Y-1)^2*(Z*Z)*(Z-1)^2 in
    let py := X*X*(X-1)^2*b1*(Z*Z)*(Z-1)^2 in
    let pz := X*X*(X-1)^2*(Y*Y)*(Y-1)^2*c1 in
    wrs v (3 * i) [- k0*px - k1*py - k2*pz; - k3*px - k4*py - k5*pz; - k6*px - k7*py - k8*pz]) v.
Definition ForcingWheeler2012_2 (alpha : R) : prog := fun n x f =>
  do K <- PermWheeler2012_2 alpha n x (repeat None (9 * n));
  for_ n (fun i f => do q <- xyz x i; let '(X, Y, Z) := q in do k <- k9 K i; let '(k0, k1, k2, k3, k4, k5, k6, k7, k8) := k in
    let X2 := X*X in let Y2 := Y*Y in let Z2 := Z*Z in
    let Xm12 := (X-1)^2 in let Ym12 := (Y-1)^2 in let Zm12 := (Z-1)^2 in
    let a1 := 2*X*(X-1)*(2*X-1) in let b1 := 2*Y*(Y-1)*(2*Y-1) in let c1 := 2*Z*(Z-1)*(2*Z-1) in
    let a2 := 12*X2 - 12*X + 2 in let b2 := 12*Y2 - 12*Y + 2 in let c2 := 12*Z2 - 12*Z + 2 in
    wr f i (Some (- k0*a2*Y2*Ym12*Z2*Zm12 - k1*a1*b1*Z2*Zm12 - k2*a1*Y2*Ym12*c1 +
      - k3*a1*b1*Z2*Zm12 - k4*X2*Xm12*b2*Z2*Zm12 - k5*X2*Xm12*b1*c1 +
      - k6*a1*Y2*Ym12*c1 - k7*X2*Xm12*b1*c1 - k8*X2*Xm12*Y2*Ym12*c2))) f.

(** Lines 340-381. *)
Definition Pressure3 : prog := fun n x f => for_ n (fun i f =>
  do q <- xyz x i; let '(X, Y, Z) := q in wr f i (Some (cos X * cos Y * cos Z))) f.
Definition Velocity3 (alpha : R) : prog := fun n x v =>
  do K <- PermWheeler2012_2 alpha n x (repeat None (9 * n));
  for_ n (fun i v => do q <- xyz x i; let '(X, Y, Z) := q in do k <- k9 K i; let '(k0, k1, k2, k3, k4, k5, k6, k7, k8) := k in
    wrs v (3 * i) [k0 * sin X * cos Y * cos Z + k1 * sin Y * cos X * cos Z + k2 * sin Z * cos X * cos Y;
      k3 * sin X * cos Y * cos Z + k4 * sin Y * cos X * cos Z + k5 * sin Z * cos X * cos Y;
      k6 * sin X * cos Y * cos Z + k7 * sin Y * cos X * cos Z + k8 * sin Z * cos X * cos Y]) v.
Definition Forcing3 (alpha : R) : prog := fun n x f =>
  do K <- PermWheeler2012_2 alpha n x (repeat None (9 * n));
  for_ n (fun i f => do q <- xyz x i; let '(X, Y, Z) := q in do k <- k9 K i; let '(k0, k1, k2, k3, k4, k5, k6, k7, k8) := k in
    wr f i (Some (k0 * cos X * cos Y * cos Z - k1 * sin X * sin Y * cos Z - k2 * sin X * sin Z * cos Y -
      k3 * sin X * sin Y * cos Z + k4 * cos X * cos Y * cos Z - k5 * sin Y * sin Z * cos X -
      k6 * sin X * sin Z * cos Y - k7 * sin Y * sin Z * cos X + k8 * cos X * cos Y * cos Z))) f.

(** demo/transient/transient.c:23-27: ( *f ) = 0 for every point. *)
Definition TransientForcing : prog := fun n x f => for_ n (fun i f => wr f 0 (Some 0)) f.

(** main, lines 763-863: the functions set for a paper, a dimension and a problem number;
    [Ok None] if none are set. *)
Inductive paper := Wheeler2006 | Wheeler2012 | NoPaper.
Record setup := mkSetup { s_perm : prog; s_forcing : prog; s_pressure : prog; s_velocity : prog }.
Definition select (alpha : R) (p : paper) (dim problem : nat) : outcome (option setup) :=
  match p, problem with
  | Wheeler2006, 0 => if (dim =? 2)%nat then Ok (Some (mkSetup PermTest2D ForcingConstant PressureConstant VelocityConstant)) else Err
  | Wheeler2006, 1 => if (dim =? 2)%nat then Ok (Some (mkSetup PermWheeler2006_1 ForcingWheeler2006_1 PressureWheeler2006_1 VelocityWheeler2006_1)) else Err
  | Wheeler2006, 2 => if (dim =? 2)%nat then Ok (Some (mkSetup PermWheeler2006_2 ForcingWheeler2006_2 PressureWheeler2006_2 VelocityWheeler2006_2)) else Err
  | Wheeler2006, _ => Err
  | Wheeler2012, 1 => if (dim =? 2)%nat then Ok (Some (mkSetup PermWheeler2012_1 ForcingWheeler2012_1 PressureWheeler2012_1 VelocityWheeler2012_1)) else Err
  | Wheeler2012, 2 => if (dim =? 3)%nat then Ok (Some (mkSetup (PermWheeler2012_2 alpha) (ForcingWheeler2012_2 alpha) PressureWheeler2012_2 (VelocityWheeler2012_2 alpha))) else Err
  | Wheeler2012, _ => Err
  | NoPaper, 1 => Ok (Some (mkSetup (if (dim =? 2)%nat then PermTest2D else PermWheeler2012_2 alpha) ForcingConstant PressureConstant VelocityConstant))
  | NoPaper, 2 => Ok (Some (if (dim =? 2)%nat then mkSetup PermTest2D ForcingQuadratic2D PressureQuadratic2D VelocityQuadratic2D
                            else mkSetup (PermWheeler2012_2 alpha) (ForcingWheeler2012_2 alpha) PressureWheeler2012_2 (VelocityWheeler2012_2 alpha)))
  | NoPaper, 3 => Ok (Some (if (dim =? 2)%nat then mkSetup PermTest2D ForcingWheeler2006_1 PressureWheeler2006_1 VelocityWheeler2006_1
                            else mkSetup (PermWheeler2012_2 alpha) (Forcing3 alpha) Pressure3 (Velocity3 alpha)))
  | NoPaper, 4 => if (dim =? 2)%nat then Ok (Some (mkSetup PermWheeler2012_1 ForcingWheeler2012_1 PressureWheeler2012_1 VelocityWheeler2012_1)) else Ok None
  | NoPaper, _ => Ok None
  end.

(** PerturbVerticesSmooth, lines 438-447, and GeometryWheeler2006_2, lines 642-648: the
    new coordinates of a vertex. *)
Definition smooth2 (x y : R) : R * R :=
  (x + 6/100 * sin (2*PI*x) * sin (2*PI*y), y - 5/100 * sin (2*PI*x) * sin (2*PI*y)).
Definition smooth3 (x y z : R) : R * R * R :=
  (x + 3/100 * sin (3*PI*x) * cos (3*PI*y) * cos (3*PI*z),
   y - 4/100 * cos (3*PI*x) * sin (3*PI*y) * cos (3*PI*z),
   z + 5/100 * cos (3*PI*x) * cos (3*PI*y) * sin (3*PI*z)).
Definition lower2 (x y : R) : R * R :=
  if Rlt_dec x (1/2) then (x, (-48/10*x*x + 2*x + 7/10) * y) else (x, (75/100*x + 125/1000) * y).
