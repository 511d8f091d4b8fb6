(** What the theorems about the BDM system say. *)
From Coq Require Import Reals List ZArith Bool Arith.
From Verif Require Import Prelude SpecFvtpf Hdiv SpecHdiv FeMap SpecFeMap Bdm.
Import ListNotations.
Local Open Scope R_scope.

Definition sum_over {X} (l : list X) (f : X -> R) : R := fold_right (fun x s => f x + s) 0 l.
Definition dot (dim : nat) (a b : nat -> R) : R := total (fun k => a k * b k) dim.
Definition times (dim : nat) (K : list R) (u : nat -> R) (i : nat) : R := total (fun j => nth (i * dim + j) K 0 * u j) dim.
Definition symmetric (dim : nat) (K : list R) : Prop := forall i j, (i < dim)%nat -> (j < dim)%nat -> nth (i * dim + j) K 0 = nth (j * dim + i) K 0.
Definition positive (dim : nat) (K : list R) : Prop :=
  forall u, (exists k, (k < dim)%nat /\ u k <> 0) -> 0 < dot dim u (times dim K u).

(** Points of the reference cell. *)
Definition inside (dim : nat) (xi : list R) : Prop := length xi = dim /\ Forall (fun t => -1 <= t <= 1) xi.

Section problem.
Variable b : problem.
Let m := b_mesh b.
Let dim := p_dim m.
Let nv := (2 ^ dim)%nat.
Let n := (dim * nv + 1)%nat.

(** Image, Jacobian matrix and determinant at a reference point. *)
Definition image (c : nat) (xi : list R) : list R := fst (fst (b_geometry b c xi)).
Definition jacobian (c : nat) (xi : list R) : list R := snd (fst (b_geometry b c xi)).
Definition det (c : nat) (xi : list R) : R := snd (b_geometry b c xi).

(** Quadrilaterals or hexahedra that are nowhere degenerate; maps of the right sizes. *)
Definition cell_regular (c : nat) : Prop :=
  forall xi, inside dim xi -> length (jacobian c xi) = (dim * dim)%nat /\ det c xi <> 0.
Definition sized : Prop :=
  (dim = 2%nat \/ dim = 3%nat) /\ b_ncv b = nv /\ length (b_emap b) = (dim * nv * p_cells m)%nat
  /\ length (b_LtoG b) = (n * p_cells m)%nat /\ length (b_orient b) = (n * p_cells m)%nat.
(** Face f of cell c is the one in direction d on side s. *)
Definition placed (c f d : nat) (s : bool) : Prop :=
  (d < dim)%nat /\ forall v d', (v < nv)%nat -> (d' < dim)%nat ->
    (Z.abs (nth (c * nv * dim + v * dim + d') (b_emap b) 0%Z) = Z.of_nat f <-> d' = d /\ Nat.testbit v d = s).

(** The basis functions of C65 in cell c, one after the other. *)
Definition basis_functions (c : nat) (phi : list R -> list R) : Prop :=
  forall xi, inside dim xi -> length (phi xi) = (dim * dim * nv)%nat /\
    (if (dim =? 2)%nat then HdivBasisQuad xi (jacobian c xi) (det c xi) else HdivBasisHex xi (jacobian c xi) (det c xi)) = Ok (map Some (phi xi)).
(** Sign and global number of local unknown r; the last one is the pressure. *)
Definition sign_of (c r : nat) : R := IZR (nth (c * n + r) (b_orient b) 0%Z).
Definition number_of (c r : nat) : Z := nth (c * n + r) (b_LtoG b) 0%Z.
(** The velocity with coefficients U; its total outflow from the cell. *)
Definition field (c : nat) (phi : list R -> list R) (U : nat -> R) (xi : list R) (k : nat) : R :=
  total (fun r => sign_of c r * U r * nth (r * dim + k) (phi xi) 0) (dim * nv).
Definition outflow (c : nat) (U : nat -> R) : R := total (fun r => sign_of c r * U r) (dim * nv).

(** Integrals, as the quadrature in use computes them. *)
Definition integral (c : nat) (f : list R -> R) : R :=
  sum_over (quadrature (b_lumped b) dim) (fun q => f (fst q) * snd q * det c (fst q)).
Definition out_normal (c f k : nat) : R :=
  (if Rle_dec 0 (fold_right (fun k s => p_N m f k * (p_X m f k - p_X m c k) + s) 0 (seq 0 dim)) then 1 else -1) * p_N m f k.
Definition insert (d : nat) (t : R) (y : list R) : list R := firstn d y ++ t :: skipn d y.
Definition surface_integral (c f d : nat) (s : bool) (g : list R -> R) : R :=
  sum_over (gauss_tensor (dim - 1)) (fun q => g (insert d (if s then 1 else -1) (fst q)) * snd q * b_surface b f (fst q)).

(** The weak form of Darcy's law and of the balance of mass in cell c: velocity U,
    pressure P; test functions V, Q. *)
Definition bilinear (c : nat) (phi : list R -> list R) (Kinv : list R) (U : nat -> R) (P : R) (V : nat -> R) (Q : R) : R :=
  integral c (fun xi => dot dim (field c phi V xi) (times dim Kinv (field c phi U xi))) - P * outflow c V - Q * outflow c U.
Definition linear (c : nat) (phi : list R -> list R) (place : nat -> nat * bool) (V : nat -> R) (Q : R) : R :=
  match b_pressure b with
  | Some g => - sum_over (filter (fun f => (b_marker b f =? 1)%Z) (b_cone b c)) (fun f =>
      surface_integral c f (fst (place f)) (snd (place f)) (fun xi => g (image c xi) * dot dim (field c phi V xi) (out_normal c f)))
  | None => 0
  end
  - Q * match b_forcing b with Some f => integral c (fun xi => f (image c xi)) | None => 0 end.
Definition entry (s : list R * list R) (i j : nat) : R := nth (i * n + j) (fst s) 0.
Definition with_last (U : nat -> R) (P : R) (i : nat) : R := if (i <? dim * nv)%nat then U i else P.
(** The local system is the weak form. *)
Definition weak_form (c : nat) (Kinv : list R) (place : nat -> nat * bool) (s : list R * list R) : Prop :=
  forall phi, basis_functions c phi -> forall V Q,
    (forall U P, total (fun i => total (fun j => with_last V Q i * entry s i j * with_last U P j) n) n = bilinear c phi Kinv U P V Q)
    /\ total (fun i => with_last V Q i * nth i (snd s) 0) n = linear c phi place V Q.

(** The global system: matrix times U is the right-hand side. *)
Definition in_range (size : nat) : Prop :=
  forall c r, (c < p_cells m)%nat -> (r < n)%nat -> (0 <= number_of c r < Z.of_nat size)%Z.
Definition solves (s : state) (size : nat) (U : nat -> R) : Prop :=
  forall i, (i < size)%nat -> total (fun j => s_A s (Z.of_nat i) (Z.of_nat j) * U j) size = s_F s (Z.of_nat i).
(** The coefficients of a cell in a global vector. *)
Definition at_cell (U : nat -> R) (c r : nat) : R := U (Z.to_nat (number_of c r)).
Definition pressure_at (U : nat -> R) (c : nat) : R := at_cell U c (dim * nv).
Definition weak_solution (phi : nat -> list R -> list R) (Kinv : nat -> list R) (place : nat -> nat -> nat * bool) (U : nat -> R) : Prop :=
  forall V,
    total (fun c => bilinear c (phi c) (Kinv c) (at_cell U c) (pressure_at U c) (at_cell V c) (pressure_at V c)) (p_cells m)
    = total (fun c => linear c (phi c) (place c) (at_cell V c) (pressure_at V c)) (p_cells m).
(** One process has all cells; the permeability K is symmetric and invertible. *)
Record well_posed (K : list (list R)) (Kinv : nat -> list R) (place : nat -> nat -> nat * bool) : Prop := {
  wp_sized : sized;
  wp_owned : forall c, (c < p_cells m)%nat -> (0 <= b_start b c)%Z;
  wp_regular : forall c, (c < p_cells m)%nat -> cell_regular c;
  wp_tensors : length K = p_cells m;
  wp_tensor : forall c, (c < p_cells m)%nat -> length (nth c K []) = (dim * dim)%nat /\ symmetric dim (nth c K []);
  wp_inverse : forall c, (c < p_cells m)%nat -> length (Kinv c) = (dim * dim)%nat /\ inverse_of dim (Kinv c) (nth c K []);
  wp_place : forall c f, (c < p_cells m)%nat -> In f (b_cone b c) -> placed c f (fst (place c f)) (snd (place c f))
}.
End problem.
