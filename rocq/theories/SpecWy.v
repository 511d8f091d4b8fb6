(** What the theorems about the Wheeler-Yotov method say. *)
From Coq Require Import Reals List ZArith Arith Bool.
From Verif Require Import Prelude SpecFvtpf SpecHdiv Mpfao Wy.
Import ListNotations.
Local Open Scope R_scope.

(** Entry of a row-major matrix. *)
Definition el_of (n : nat) (M : list R) (i j : nat) : R := nth (i * n + j) M 0.
Definition symmetric (n : nat) (M : list R) : Prop :=
  forall i j, (i < n)%nat -> (j < n)%nat -> el_of n M i j = el_of n M j i.
Definition positive_definite (n : nat) (M : list R) : Prop :=
  forall w : nat -> R, (exists i, (i < n)%nat /\ w i <> 0) ->
    0 < total (fun i => total (fun j => w i * el_of n M i j * w j) n) n.

(** ** Around a vertex *)

(** For every cell around the vertex: which of its corners the vertex is, and for
    every direction the face there and +1 if its normal points out of the cell, -1
    if it points into it. *)
Record star_data := mkStar { pos : nat -> nat; dir_face : nat -> nat -> nat; dir_sign : nat -> nat -> R }.
Record good_star (m : mesh) (star : list nat) (v : nat) (st : star_data) : Prop := {
  gs_faces : NoDup (faces_of m star);
  gs_cells : NoDup (cells_of m star);
  gs_corner : forall c, In c (cells_of m star) -> exists el, nth_error (elements m) c = Some el
    /\ NoDup (vmap el) /\ length (vmap el) = (2 ^ dim m)%nat /\ nth_error (vmap el) (pos st c) = Some v
    /\ forall d, (d < dim m)%nat -> exists z, nth_error (emap el) (pos st c * dim m + d) = Some z
         /\ z <> 0%Z /\ face z = dir_face st c d /\ sign z = dir_sign st c d;
  gs_known : forall c d, In c (cells_of m star) -> (d < dim m)%nat ->
    In (dir_face st c d) (faces_of m star) /\ exists a, nth_error (V m) (dir_face st c d) = Some a /\ 0 < a;
  gs_used : forall f, In f (faces_of m star) -> exists c d, In c (cells_of m star) /\ (d < dim m)%nat /\ dir_face st c d = f;
  gs_fits : fits (length (faces_of m star)) (length (cells_of m star)) = true
}.
(** All (cell, direction) pairs. *)
Definition corners (m : mesh) (star : list nat) : list (nat * nat) := list_prod (cells_of m star) (seq 0 (dim m)).
Definition rsum {X} (f : X -> R) (l : list X) : R := fold_right (fun x a => f x + a) 0 l.
(** An inner face lies between cells whose outward normals there cancel; a boundary
    face belongs to one cell and has a prescribed pressure. *)
Definition inner_face (m : mesh) (star : list nat) (st : star_data) (f : nat) : Prop :=
  bc m f = None
  /\ rsum (fun x => if (dir_face st (fst x) (snd x) =? f)%nat then dir_sign st (fst x) (snd x) else 0) (corners m star) = 0.
Definition outer_face (m : mesh) (star : list nat) (st : star_data) (f : nat) (p : R) : Prop :=
  bc m f = Some p
  /\ exists c d, In (c, d) (corners m star) /\ dir_face st c d = f
       /\ forall c' d', In (c', d') (corners m star) -> dir_face st c' d' = f -> c' = c /\ d' = d.

(** ** Elements *)

(** Cell [c] is the image of [-1,1]^dim under the map with constant Jacobian matrix
    [DF], with centre [xc] and permeability [K]; [N] and [xf] are the unit normals
    and centres of the faces. *)
Record parallelepiped (m : mesh) (st : star_data) (c : nat) (DF DFinv K : list R) (J : R) (xc : nat -> R) (N xf : nat -> nat -> R) : Prop := {
  pp_sizes : length K = (dim m * dim m)%nat /\ length DFinv = (dim m * dim m)%nat;
  pp_inverse : inverse_of (dim m) DF DFinv /\ inverse_of (dim m) DFinv DF;
  pp_J : 0 < J;
  pp_K : symmetric (dim m) K /\ positive_definite (dim m) K;
  pp_kinv : forall el, nth_error (elements m) c = Some el -> Pullback (dim m) K DFinv J (kinv el (pos st c));
  pp_area : forall d k a, (d < dim m)%nat -> (k < dim m)%nat -> nth_error (V m) (dir_face st c d) = Some a ->
    dir_sign st c d * a * N (dir_face st c d) k = 2 ^ (dim m - 1) * J * (side (pos st c) d * el_of (dim m) DFinv d k);
  pp_centre : forall d k, (d < dim m)%nat -> (k < dim m)%nat ->
    xf (dir_face st c d) k = xc k + side (pos st c) d * el_of (dim m) DF k d
}.
(** The same without the geometry of the faces. *)
Record regular_element (m : mesh) (st : star_data) (c : nat) (DFinv K : list R) (J : R) : Prop := {
  re_sizes : length K = (dim m * dim m)%nat /\ length DFinv = (dim m * dim m)%nat;
  re_inverse : exists DF, inverse_of (dim m) DF DFinv /\ inverse_of (dim m) DFinv DF;
  re_J : 0 < J;
  re_K : symmetric (dim m) K /\ positive_definite (dim m) K;
  re_kinv : forall el, nth_error (elements m) c = Some el -> Pullback (dim m) K DFinv J (kinv el (pos st c))
}.

(** Darcy flux per area through a face with normal [n] under pressure gradient [g]. *)
Definition darcy (dim : nat) (K : list R) (g n : nat -> R) : R :=
  - total (fun k => n k * total (fun l => el_of dim K k l * g l) dim) dim.
(** Pressure at [x] of a linear pressure with value [p] at [xc] and gradient [g]. *)
Definition linear (dim : nat) (p : R) (g xc x : nat -> R) : R := p + total (fun k => g k * (x k - xc k)) dim.

(** ** The mass balance *)

(** Volume of water per time through face [f]: its area times the mean of the
    velocities at its vertices. *)
Definition face_flow (g : geometry) (first nfv : nat) (vel : list R) (f : nat) : R :=
  nth f (g_V g) 0 * (total (fun j => nth (nfv * (f - first) + j) vel 0) nfv / INR nfv).
(** The normal of [f] points away from the centroid of [c]. *)
Definition away (n : nat) (g : geometry) (c f : nat) : Prop := 0 < total (fun k => g_N g f k * (g_X g f k - g_X g c k)) n.
Definition towards (n : nat) (g : geometry) (c f : nat) : Prop := total (fun k => g_N g f k * (g_X g f k - g_X g c k)) n < 0.
(** The (cell, face) pairs of a mesh with face [f]. *)
Definition pairs (cells : list cell_data) : list (nat * nat) :=
  flat_map (fun c => match nth_error cells c with Some x => map (pair c) (c_cone x) | None => [] end) (seq 0 (length cells)).
Definition sides_of (cells : list cell_data) (f : nat) : list (nat * nat) := filter (fun x => (snd x =? f)%nat) (pairs cells).
(** [last] is one past the last face. *)
Record good_mesh (n : nat) (g : geometry) (first last nfv : nat) (vel : list R) (cells : list cell_data) : Prop := {
  gm_nfv : (0 < nfv)%nat;
  gm_range : forall c x f, nth_error cells c = Some x -> In f (c_cone x) -> (first <= f < last)%nat;
  gm_vel : length vel = (nfv * (last - first))%nat;
  gm_areas : (last <= length (g_V g))%nat
}.
Definition between_cells (n : nat) (g : geometry) (cells : list cell_data) (f : nat) : Prop :=
  exists c1 c2, sides_of cells f = [(c1, f); (c2, f)] /\ (away n g c1 f /\ towards n g c2 f \/ towards n g c1 f /\ away n g c2 f).
Definition on_boundary (n : nat) (g : geometry) (cells : list cell_data) (f : nat) : Prop :=
  exists c, sides_of cells f = [(c, f)] /\ away n g c f.
(** Change of the water volume in cell [c], plus outflow, less what is injected. *)
Definition imbalance (volume porosity dS_dP dp_dt outflow source : R) : R := volume * porosity * dS_dP * dp_dt + outflow - source.
