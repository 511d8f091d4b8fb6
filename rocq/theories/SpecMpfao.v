(** What the theorems about multi-point fluxes say, independently of how the
    transmissibilities are computed. *)
From Coq Require Import Reals List Bool Arith.
From Verif Require Import Prelude SpecFvtpf Mpfao.
Import ListNotations.
Local Open Scope R_scope.

(** The flux through one face of a sub-cell, computed inside that sub-cell from the
    cell pressure [p] and the pressures [pi] of the interfaces: the scalar product
    of the face's row of G with the differences. *)
Definition side_flux (s : subcell) (f : sface) (p : R) (pi : nat -> R) : R :=
  let '(f0, f1, f2) := s in
  let '(g0, g1, g2) := sf_g f in
  g0 * (p - pi (sf_unk f0)) + g1 * (p - pi (sf_unk f1)) + g2 * (p - pi (sf_unk f2)).

(** Every vector that A maps to zero is zero. *)
Definition nonsingular (n : nat) (A : list R) : Prop :=
  forall y : nat -> R, (forall i, (i < n)%nat -> total (fun k => nth (k * n + i) A 0 * y k) n = 0) ->
    forall k, (k < n)%nat -> y k = 0.

(** The numbering of faces around a vertex (set up by SetupUpwindFacesForSubcell,
    src/fv/share/tdymeshplex.c:1529-1710): internal faces come first; a face has the
    same number as an unknown and as a flux if it is internal; boundary faces are
    numbered behind them, as unknowns in the order in which they are met, as fluxes
    separately among the upwind and among the downwind ones. *)
Definition is_bnd (f : sface) : bool := negb (sf_internal f).
Definition all_faces (v : vertex) : list sface := flat_map sfaces (v_sub v).
Definition count (p : sface -> bool) (v : vertex) : nat := length (filter p (all_faces v)).
Definition inner (v : vertex) : nat := (v_nfaces v - count is_bnd v)%nat.
Definition side (up : bool) (f : sface) : bool := Bool.eqb (sf_up f) up.
Record well_numbered (v : vertex) : Prop := {
  wn_cells : length (v_cells v) = length (v_sub v);
  wn_bnd : v_nbnd v = count is_bnd v;
  wn_faces : (count is_bnd v <= v_nfaces v)%nat;
  wn_rows : length (v_rows v) = v_nfaces v;
  wn_rows_distinct : NoDup (v_rows v);
  wn_unknowns_distinct : forall s, In s (v_sub v) -> NoDup (map sf_unk (sfaces s));
  wn_inner : forall f, In f (all_faces v) -> sf_internal f = true ->
    sf_unk f = sf_flux f /\ (sf_flux f < inner v)%nat;
  wn_outer : forall f, In f (all_faces v) -> sf_internal f = false ->
    (inner v <= sf_flux f < inner v + count (fun h => is_bnd h && side (sf_up f) h) v)%nat;
  wn_outer_unknown : forall j f, nth_error (filter is_bnd (all_faces v)) j = Some f ->
    sf_unk f = (inner v + j)%nat;
  wn_flux_distinct : forall up, NoDup (map sf_flux (filter (side up) (all_faces v)))
}.

(** The place of a face in the vertex's list of faces: internal faces, upwind
    boundary faces, downwind boundary faces. *)
Definition place (v : vertex) (f : sface) : nat :=
  if is_bnd f && negb (sf_up f)
  then (sf_flux f + count (fun h => is_bnd h && sf_up h) v)%nat
  else sf_flux f.

(** LAPACK's answer for the local system of a vertex. *)
Definition lapack_answer (b : bctype) (v : vertex) (X : list R) : Prop :=
  forall m, ComputeCandF (sizes_of b v) v = Ok m ->
    solves (nsys (sizes_of b v)) (ncol (sizes_of b v)) (fill_A (sizes_of b v) m) (fill_B (sizes_of b v) m) X.
Definition regular (b : bctype) (v : vertex) : Prop :=
  forall m, ComputeCandF (sizes_of b v) v = Ok m ->
    nonsingular (nsys (sizes_of b v)) (fill_A (sizes_of b v) m).
