(** What the theorems about solutions of the BDM system say. *)
From Coq Require Import Reals List ZArith Bool Arith.
From Verif Require Import Prelude SpecFvtpf Hdiv SpecHdiv FeMap SpecFeMap Bdm SpecBdm.
Import ListNotations.
Local Open Scope R_scope.

Section mesh.
Variables (b : problem) (corner : nat -> nat -> nat) (wall : nat -> nat -> bool -> nat).
Let m := b_mesh b.
Let dim := p_dim m.
Let nv := (2 ^ dim)%nat.

(** The maps are those of C79; the cone of a cell lists its faces. *)
Record set_up : Prop := {
  su_boxes : boxes m corner wall;
  su_faces : square_faces m;
  su_cells : (0 < p_cells m)%nat;
  su_ranges : own_ranges m (b_start b);
  su_maps : exists vmap, BDMMaps m (b_start b) = Ok (vmap, b_emap b, (b_LtoG b, b_orient b));
  su_ncv : b_ncv b = nv;
  su_cone : forall c f, (c < p_cells m)%nat -> (In f (b_cone b c) <-> exists d s, (d < dim)%nat /\ f = wall c d s);
  su_once : forall c, (c < p_cells m)%nat -> NoDup (b_cone b c)
}.
(** Direction and side of a face of cell c. *)
Definition place_of (c f : nat) : nat * bool :=
  match find (fun p => (wall c (fst p) (snd p) =? f)%nat) (list_prod (seq 0 dim) [false; true]) with Some p => p | None => (0%nat, false) end.
(** All unknowns have numbers below [size]. *)
Definition bounded (size : nat) : Prop :=
  forall p, carries m p -> (first_unknown (b_start b p) + size_of m p <= Z.of_nat size)%Z.

(** Two cells see a common face from different sides. *)
Definition shared (c d : nat) (s : bool) (c' d' : nat) (s' : bool) : Prop :=
  (c < p_cells m)%nat /\ (d < dim)%nat /\ (c' < p_cells m)%nat /\ (d' < dim)%nat /\ c <> c' /\ wall c d s = wall c' d' s'.
Definition two_sided : Prop :=
  forall c d s c' d' s', shared c d s c' d' s' -> (outward m c (wall c d s) <-> ~ outward m c' (wall c d s)).

(** Flow out of cell c through one of its faces. *)
Definition on_wall (d : nat) (s : bool) : list nat := filter (fun v => Bool.eqb (Nat.testbit v d) s) (seq 0 nv).
Definition wall_flux (c d : nat) (s : bool) (U : nat -> R) : R :=
  sum_over (on_wall d s) (fun v => sign_of b c (v * dim + d) * U (v * dim + d)%nat).
Definition source (c : nat) : R := match b_forcing b with Some f => integral b c (fun xi => f (image b c xi)) | None => 0 end.

(** The Jacobian matrices are invertible, with positive determinant. *)
Definition proper (c : nat) : Prop :=
  forall xi, inside dim xi -> length (jacobian b c xi) = (dim * dim)%nat /\ 0 < det b c xi /\ exists DFinv, inverse_of dim DFinv (jacobian b c xi).
(** From every cell one comes to the boundary, crossing faces between two cells. *)
Inductive reaches : nat -> Prop :=
  | at_boundary : forall c d s, (c < p_cells m)%nat -> (d < dim)%nat -> (forall c' d' s', ~ shared c d s c' d' s') -> reaches c
  | through : forall c d s c' d' s', shared c d s c' d' s' -> (forall c2 d2 s2, shared c d s c2 d2 s2 -> c2 = c') -> reaches c' -> reaches c.
(** Every row of the system belongs to a face or cell. *)
Definition covered (size : nat) : Prop :=
  forall i, (i < size)%nat -> exists c r, (c < p_cells m)%nat /\ (r < dim * nv + 1)%nat /\ number_of b c r = Z.of_nat i.

(** Parallelepipeds: cell c is the image of the reference cell under x -> X_c + DF_c x;
    a wall of c has the centroid and, [area] times its normal, the vector area that
    this map yields. *)
Definition parallelepipeds (DF : nat -> list R) (J area : nat -> R) : Prop :=
  (forall f y, b_surface b f y = area f) /\
  forall c, (c < p_cells m)%nat -> length (DF c) = (dim * dim)%nat /\ 0 < J c /\
    (exists DFinv, length DFinv = (dim * dim)%nat /\ inverse_of dim DFinv (DF c)) /\
    (forall xi, inside dim xi -> jacobian b c xi = DF c /\ det b c xi = J c /\
       forall k, (k < dim)%nat -> nth k (image b c xi) 0 = p_X m c k + times dim (DF c) (fun j => nth j xi 0) k) /\
    (forall v k, (v < nv)%nat -> (k < dim)%nat -> p_X m (corner c v) k = p_X m c k + times dim (DF c) (side v) k) /\
    (forall d s, (d < dim)%nat ->
       (forall k, (k < dim)%nat -> p_X m (wall c d s) k = p_X m c k + nth (k * dim + d) (DF c) 0 * (if s then 1 else -1)) /\
       vector_area dim (DF c) (J c) d (if s then 1 else -1) (fun k => area (wall c d s) * out_normal b c (wall c d s) k)).
(** Every face is marked and belongs to one cell, or is not and lies between two. *)
Definition boundary_marked : Prop :=
  forall c d s, (c < p_cells m)%nat -> (d < dim)%nat ->
    if (b_marker b (wall c d s) =? 1)%Z then forall c' d' s', ~ shared c d s c' d' s'
    else exists c' d' s', shared c d s c' d' s' /\ forall c2 d2 s2, shared c d s c2 d2 s2 -> c2 = c'.
(** The pressure p0 + g x, and the solution with that pressure and the flow -K g. *)
Definition linear_function (p0 : R) (g : nat -> R) (x : nat -> R) : R := p0 + dot dim g x.
Definition is_exact (area : nat -> R) (K : list R) (p0 : R) (g : nat -> R) (U : nat -> R) : Prop :=
  forall c, (c < p_cells m)%nat -> pressure_at b U c = linear_function p0 g (p_X m c) /\
    forall v d, (v < nv)%nat -> (d < dim)%nat -> let f := wall_of wall c v d in
      at_cell b U c (v * dim + d) = area f * dot dim (p_N m f) (fun k => - times dim K g k).
End mesh.

(** The same problem with boundary pressure g. *)
Definition with_pressure (b : problem) (g : list R -> R) : problem :=
  mkProblem (b_mesh b) (b_ncv b) (b_emap b) (b_LtoG b) (b_orient b) (b_start b) (b_cone b) (b_marker b) (b_geometry b) (b_surface b) (b_lumped b) (b_forcing b) (Some g) (b_lu b).
