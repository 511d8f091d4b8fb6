(** What the theorems about sub-cells say, independently of how they are set up. *)
From Coq Require Import Reals List Bool Arith ZArith.
From Verif Require Import Prelude Arrays SpecFvtpf Geom SpecGeom Mpfao SpecMpfao Subcell.
Import ListNotations.
Local Open Scope R_scope.

(** The determinant of three vectors: six times the signed volume of their tetrahedron. *)
Definition det3 (a b c : v3) : R :=
  vx a * (vy b * vz c - vz b * vy c) - vy a * (vx b * vz c - vz b * vx c) + vz a * (vx b * vy c - vy b * vx c).
(** The signed volume, seen from [o], of the triangle x0 x1 x2. *)
Definition seen (o x0 x1 x2 : v3) : R := det3 (vsub x0 o) (vsub x1 o) (vsub x2 o).
(** The plane through three points passes strictly between two others. *)
Definition between (p q x0 x1 x2 : v3) : Prop := seen p x0 x1 x2 * seen q x0 x1 x2 < 0.

(** A pressure that varies linearly in space. *)
Definition linear (p0 : R) (grad x : v3) : R := p0 + dot grad x.

(** The face belongs to the cell. *)
Definition touches (g : geo) (cell f : nat) : bool :=
  match nth_error (g_fcells g) f with
  | Some c => (fst c =? Z.of_nat cell)%Z || (snd c =? Z.of_nat cell)%Z
  | None => false
  end.

(** The three vectors are the columns of the inverse of the matrix of edges, up to the
    factor [d]: each is orthogonal to the two other edges. *)
Definition dual (v0 v1 v2 e0 e1 e2 : v3) (d : R) : Prop :=
  dot v0 e0 = d /\ dot v0 e1 = 0 /\ dot v0 e2 = 0 /\
  dot v1 e0 = 0 /\ dot v1 e1 = d /\ dot v1 e2 = 0 /\
  dot v2 e0 = 0 /\ dot v2 e1 = 0 /\ dot v2 e2 = d.

(** * A vertex and its local system *)

(** Pressures at the interfaces around a vertex that satisfy what the scheme demands:
    the prescribed pressure on Dirichlet faces, the same flux on both sides of internal
    faces, no flux through Neumann faces. *)
Definition balanced (b : bctype) (ncells : nat) (v : vertex) (P pi : nat -> R) : Prop :=
  (b <> NeumannBC -> forall f, In f (all_faces v) -> sf_internal f = false ->
     pi (sf_unk f) = P (sf_bnd f + ncells)%nat) /\
  (forall a s f c a' s' f' c', nth_error (v_sub v) a = Some s -> In f (sfaces s) -> nth_error (v_cells v) a = Some c ->
     nth_error (v_sub v) a' = Some s' -> In f' (sfaces s') -> nth_error (v_cells v) a' = Some c' ->
     sf_internal f = true -> sf_internal f' = true -> sf_flux f = sf_flux f' ->
     side_flux s f (P c) pi = side_flux s' f' (P c') pi) /\
  (b = NeumannBC -> forall a s f c, nth_error (v_sub v) a = Some s -> In f (sfaces s) -> nth_error (v_cells v) a = Some c ->
     sf_internal f = false -> side_flux s f (P c) pi = 0).

(** Every internal face has a sub-cell on its upwind side and one on its downwind side. *)
Definition two_sided (v : vertex) : Prop :=
  forall f, In f (all_faces v) -> sf_internal f = true ->
  exists h, In h (all_faces v) /\ sf_internal h = true /\ sf_flux h = sf_flux f /\ sf_up h = negb (sf_up f).

(** The vertex number [iv] of the mesh [g] with the tensor [K] in all its cells: the
    G matrices are those of the sub-cells that SetupSubcell makes, and in each sub-cell
    the plane through the face centres passes between the vertex and the cell centre.
    [face] gives the face for each unknown. *)
Definition of_mesh (g : geo) (K : m3) (iv : nat) (v : vertex) (face : nat -> nat) : Prop :=
  forall a f0 f1 f2 cell, nth_error (v_sub v) a = Some (f0, f1, f2) -> nth_error (v_cells v) a = Some cell ->
  exists sg cen vtx x0 x1 x2,
    SetupSubcell g cell iv = Ok sg /\
    s_faces sg = (face (sf_unk f0), face (sf_unk f1), face (sf_unk f2)) /\
    nth_error (g_cc g) cell = Some cen /\ nth_error (g_vx g) iv = Some vtx /\
    nth_error (g_fc g) (face (sf_unk f0)) = Some x0 /\ nth_error (g_fc g) (face (sf_unk f1)) = Some x1 /\
    nth_error (g_fc g) (face (sf_unk f2)) = Some x2 /\
    between cen vtx x0 x1 x2 /\
    forall k f ar n, nth_error [f0; f1; f2] k = Some f ->
      nth_error (let '(a0, a1, a2) := s_area sg in [a0; a1; a2]) k = Some (Some ar) ->
      nth_error (g_fn g) (face (sf_unk f)) = Some n -> row_G K sg n ar = Some (sf_g f).
(** Faces have a centre, a normal, an area and vertices. *)
Definition complete (g : geo) (face : nat -> nat) (v : vertex) (xf nrm : nat -> v3) (ar : nat -> R) : Prop :=
  forall f, In f (all_faces v) ->
    nth_error (g_fc g) (face (sf_unk f)) = Some (xf (sf_unk f)) /\
    nth_error (g_fn g) (face (sf_unk f)) = Some (nrm (sf_unk f)) /\
    exists A vs, nth_error (g_fa g) (face (sf_unk f)) = Some A /\ nth_error (g_fverts g) (face (sf_unk f)) = Some vs /\
      vs <> [] /\ ar (sf_unk f) = A / INR (length vs).

(** * Two-point G matrices *)

(** The row of a face has one entry, at the face's own place. *)
Definition two_point (s : subcell) (f : sface) (G : R) : Prop :=
  let '(f0, f1, f2) := s in
  (f = f0 /\ sf_g f = (G, 0, 0)) \/ (f = f1 /\ sf_g f = (0, G, 0)) \/ (f = f2 /\ sf_g f = (0, 0, G)).
(** The same conductivity in all directions. *)
Definition isotropic (k : R) : m3 := M3 k 0 0 0 k 0 0 0 k.
(** The flux per unit area through two layers of thicknesses hA and hB, between the
    pressures pA and pB: the pressure pi of the interface makes both fluxes equal. *)
Definition series (kA kB hA hB pA pB q : R) : Prop :=
  exists pi, q = kA * (pA - pi) / hA /\ q = kB * (pi - pB) / hB.
