(** Model of the arrays of the sub-cells and of the functions that hand them out,
    src/fv/share/tdymesh.c:85-140, 1336-1560 and src/fv/share/tdymeshplex.c:969-1035.

    Simplification: the entries of all arrays have one type [A] (numbers, vectors and
    coordinates are treated alike), [blank] is what unused entries are set to. *)
From Coq Require Import List Arith ZArith.
From Verif Require Import Prelude Arrays Mesh.
Import ListNotations.
Local Open Scope Z_scope.

(** Lines 681-755: nu vectors, faces and vertices of a sub-cell (SUBCELL_HEX_TYPE). *)
Definition NumNuVectors : nat := 3.
Definition NumFaces : nat := NumNuVectors.
Definition NumVertices : nat := 8.

Record subcells (A : Type) := mkSubcells {
  s_nfaces : list nat; s_nnu : list nat; s_nverts : list nat;         (* num_faces, num_nu_vectors, num_vertices *)
  s_foff : list Z; s_noff : list Z; s_voff : list Z;                  (* face_, nu_vector_ and vertex_offset *)
  s_faces : list A; s_up : list A; s_unknown : list A; s_flux : list A; s_area : list A; s_vertices : list A;
  s_nu : list A; s_nustar : list A; s_continuity : list A; s_centroid : list A;
  s_corners : list A                                                  (* vertices_coordinates *) }.
Arguments mkSubcells {A}. Arguments s_nfaces {A}. Arguments s_nnu {A}. Arguments s_nverts {A}.
Arguments s_foff {A}. Arguments s_noff {A}. Arguments s_voff {A}.
Arguments s_faces {A}. Arguments s_up {A}. Arguments s_unknown {A}. Arguments s_flux {A}. Arguments s_area {A}. Arguments s_vertices {A}.
Arguments s_nu {A}. Arguments s_nustar {A}. Arguments s_continuity {A}. Arguments s_centroid {A}. Arguments s_corners {A}.

Section Subcells.
Context {A : Type}.
Variable blank : A.

(** AllocateSubcells, lines 85-140: the counts and offsets of [n] sub-cells.  The other
    arrays are filled later (SetupSubcells, [Subcell]); [f] is what they hold then. *)
Definition allocate_subcells (n : nat) (f : subcells A) : outcome (subcells A) :=
  do foff <- offsets n NumFaces;
  do noff <- offsets n NumNuVectors;
  do voff <- offsets n NumVertices;
  Ok (mkSubcells (repeat NumFaces n) (repeat NumNuVectors n) (repeat NumVertices n) foff noff voff
        (s_faces f) (s_up f) (s_unknown f) (s_flux f) (s_area f) (s_vertices f)
        (s_nu f) (s_nustar f) (s_continuity f) (s_centroid f) (s_corners f)).

(** ConvertSubcellsToCompressedFormat, tdymeshplex.c:965-1036. *)
Definition compress_subcells (n : nat) (s : subcells A) : outcome (subcells A) :=
  do r <- convert blank n NumFaces false (s_nfaces s) (s_foff s) (s_faces s); let '(foff, faces) := r in
  do r <- convert blank n NumFaces false (s_nfaces s) foff (s_up s); let '(foff, up) := r in
  do r <- convert blank n NumFaces false (s_nfaces s) foff (s_unknown s); let '(foff, unknown) := r in
  do r <- convert blank n NumFaces false (s_nfaces s) foff (s_flux s); let '(foff, flux) := r in
  do r <- convert blank n NumFaces false (s_nfaces s) foff (s_area s); let '(foff, area) := r in
  do r <- convert blank n NumFaces true (s_nfaces s) foff (s_vertices s); let '(foff, vertices) := r in
  do r <- convert blank n NumNuVectors false (s_nnu s) (s_noff s) (s_nu s); let '(noff, nu) := r in
  do r <- convert blank n NumNuVectors false (s_nnu s) noff (s_nustar s); let '(noff, nustar) := r in
  do r <- convert blank n NumNuVectors false (s_nnu s) noff (s_continuity s); let '(noff, continuity) := r in
  do r <- convert blank n NumNuVectors true (s_nnu s) noff (s_centroid s); let '(noff, centroid) := r in
  do r <- convert blank n NumVertices true (s_nverts s) (s_voff s) (s_corners s); let '(voff, corners) := r in
  Ok (mkSubcells (s_nfaces s) (s_nnu s) (s_nverts s) foff noff voff faces up unknown flux area vertices nu nustar continuity centroid corners).

(** Lines 1471-1560: the row starts where [start] says and ends where [stop] says that
    the next row starts; the entries the caller then reads. *)
Definition between (start stop : list Z) (ids : list A) (i : nat) : outcome (list A) :=
  do o <- rd start i;
  do e <- rd stop (S i);
  for_ (Z.to_nat (e - o)) (fun j l => do v <- rdz ids (o + Z.of_nat j); Ok (l ++ [v])%list) [].

Definition GetSubcellFaces (s : subcells A) := between (s_foff s) (s_foff s) (s_faces s).
Definition GetSubcellIsFaceUp (s : subcells A) := between (s_foff s) (s_foff s) (s_up s).
Definition GetSubcellFaceUnknownIdxs (s : subcells A) := between (s_foff s) (s_foff s) (s_unknown s).
Definition GetSubcellFaceFluxIdxs (s : subcells A) := between (s_foff s) (s_foff s) (s_flux s).
Definition GetSubcellFaceAreas (s : subcells A) := between (s_foff s) (s_foff s) (s_area s).
Definition GetSubcellVertices (s : subcells A) := between (s_foff s) (s_foff s) (s_vertices s).
Definition GetSubcellNuVectors (s : subcells A) := between (s_foff s) (s_noff s) (s_nu s).
Definition GetSubcellNuStarVectors (s : subcells A) := between (s_foff s) (s_noff s) (s_nustar s).
Definition GetSubcellVariableContinuityCoordinates (s : subcells A) := between (s_foff s) (s_noff s) (s_continuity s).
Definition GetSubcellFaceCentroids (s : subcells A) := between (s_foff s) (s_noff s) (s_continuity s).
Definition GetSubcellVerticesCoordinates (s : subcells A) := between (s_foff s) (s_noff s) (s_corners s).
End Subcells.
