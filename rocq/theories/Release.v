(** Model of the memory a simulator's discretization takes and gives back: the
    allocations of TDySetup and the releases of TDyDestroy for the MPFA-O and
    FV-TPF methods on a DMPlex mesh.

    Only the allocations the methods keep in their context and in the mesh are
    modelled; temporaries of the mesh construction, the material-property,
    condition and characteristic-curve objects, and the rest of the TDy object are
    not.  The closures are taken to fit the room first given to them (the other
    case is C97).  A PETSc Mat or Vec counts as one block. *)
From Coq Require Import Reals ZArith Bool List Arith String.
From Verif Require Import Prelude Arrays.
Import ListNotations.
Local Open Scope string_scope.
Local Open Scope nat_scope.

(** ** The heap
    A pointer is NULL or the address of a block with [cap] elements, of which the
    leading ones are the pointers [rows] (the others are zero). *)
Inductive ptr := Null | Blk (b cap : nat) (rows : list ptr).
(** The blocks not yet freed, and the next address. *)
Record heap := mkHeap { live : list nat; next : nat }.

Definition is_live (h : heap) (p : ptr) : bool :=
  match p with Null => false | Blk b _ _ => existsb (Nat.eqb b) (live h) end.

(** TDyAlloc (include/private/tdymemoryimpl.h:11, PetscCalloc1): NULL for no element. *)
Definition tdy_alloc (n : nat) (h : heap) : ptr * heap :=
  if n =? 0 then (Null, h) else (Blk (next h) n [], mkHeap (next h :: live h) (S (next h))).
(** TDyFree (src/tdymemory.c:5-7, PetscFree): NULL is ignored, a second release is undefined. *)
Definition tdy_free (p : ptr) (h : heap) : outcome heap :=
  match p with
  | Null => Ok h
  | Blk b _ _ => if is_live h p then Ok (mkHeap (remove Nat.eq_dec b (live h)) (next h)) else UB
  end.

(** TDyAllocate_*Array_1D/2D/3D/4D (src/tdymemory.c:117-202); every TDyAlloc asks
    for the number of elements times their size (8 bytes). *)
Fixpoint rows_alloc (k : nat) (f : heap -> ptr * heap) (h : heap) : list ptr * heap :=
  match k with
  | O => ([], h)
  | S k => let (p, h1) := f h in let (ps, h2) := rows_alloc k f h1 in (p :: ps, h2)
  end.
Definition set_rows (p : ptr) (rows : list ptr) : ptr :=
  match p with Null => Null | Blk b cap _ => Blk b cap rows end.
Fixpoint alloc_array (dims : list nat) (h : heap) : ptr * heap :=
  match dims with
  | [] => (Null, h)
  | n :: rest =>
      let (p, h1) := tdy_alloc (n * 8) h in
      match rest with
      | [] => (p, h1)
      | _ => let (rows, h2) := rows_alloc n (alloc_array rest) h1 in (set_rows p rows, h2)
      end
  end.

(** [a[i]] for an array of pointers. *)
Definition row (h : heap) (p : ptr) (i : nat) : outcome ptr :=
  match p with
  | Null => UB
  | Blk _ cap rows =>
      if is_live h p then
        match nth_error rows i with
        | Some r => Ok r
        | None => if i <? cap then Ok Null else UB
        end
      else UB
  end.
(** TDyDeallocate_*Array_1D/2D/3D/4D (src/tdymemory.c:205-286): [counts] are the
    extents passed, all but the innermost. *)
Fixpoint dealloc_rows (k i : nat) (f : ptr -> heap -> outcome heap) (p : ptr) (h : heap) : outcome heap :=
  match k with
  | O => Ok h
  | S k => do r <- row h p i; do h1 <- f r h; dealloc_rows k (S i) f p h1
  end.
Fixpoint dealloc_array (counts : list nat) (p : ptr) (h : heap) : outcome heap :=
  match counts with
  | [] => tdy_free p h
  | n :: counts => do h1 <- dealloc_rows n 0 (dealloc_array counts) p h; tdy_free p h1
  end.

(** ** Sizes
    Numbers of mesh entities and largest numbers of one kind around another. *)
Record sizes := mkSizes {
  z_cells : nat; z_faces : nat; z_edges : nat; z_vertices : nat; z_boundary_faces : nat;
  z_cell_vertices : nat; z_cell_edges : nat; z_cell_neighbors : nat; z_cell_faces : nat;
  z_vertex_cells : nat; z_vertex_faces : nat; z_vertex_edges : nat;
  z_edge_cells : nat; z_face_cells : nat; z_face_edges : nat; z_face_vertices : nat }.
(** The size expressions that occur in the calls. *)
Inductive size :=
| Cells | Faces | Edges | Vertices | BoundaryFaces
| CellVertices | CellEdges | CellNeighbors | CellFaces
| VertexCells | VertexFaces | VertexEdges
| EdgeCells | FaceCells | FaceEdges | FaceVertices
| Const (n : nat) | Plus (a b : size) | Times (a b : size).
Fixpoint eval (z : sizes) (e : size) : nat :=
  match e with
  | Cells => z_cells z | Faces => z_faces z | Edges => z_edges z | Vertices => z_vertices z
  | BoundaryFaces => z_boundary_faces z
  | CellVertices => z_cell_vertices z | CellEdges => z_cell_edges z
  | CellNeighbors => z_cell_neighbors z | CellFaces => z_cell_faces z
  | VertexCells => z_vertex_cells z | VertexFaces => z_vertex_faces z | VertexEdges => z_vertex_edges z
  | EdgeCells => z_edge_cells z | FaceCells => z_face_cells z | FaceEdges => z_face_edges z
  | FaceVertices => z_face_vertices z
  | Const n => n
  | Plus a b => eval z a + eval z b
  | Times a b => eval z a * eval z b
  end.
(** num_cells + num_faces + num_edges + num_vertices, and the length of the DMPlex chart. *)
Definition points : size := Plus (Plus (Plus Cells Faces) Edges) Vertices.

(** ** The context and the mesh
    Both are structures of pointers, zero-filled when allocated; the mesh hangs on
    the field mesh of the context. *)
Inductive obj := Ctx | Mesh.
Record st := mkSt { hp : heap; ctx : ptr; cf : list (string * ptr); mf : list (string * ptr) }.

Fixpoint lookup (f : string) (l : list (string * ptr)) : ptr :=
  match l with
  | [] => Null
  | (g, p) :: l => if String.eqb f g then p else lookup f l
  end.
Definition get (s : st) (k : obj * string) : ptr :=
  match fst k with Ctx => lookup (snd k) (cf s) | Mesh => lookup (snd k) (mf s) end.
(** Reading a field of a structure that is NULL or freed is undefined. *)
Definition reach (s : st) (o : obj) : outcome unit :=
  if is_live (hp s) (ctx s) then
    match o with
    | Ctx => Ok tt
    | Mesh => if is_live (hp s) (get s (Ctx, "mesh")) then Ok tt else UB
    end
  else UB.
Definition set (s : st) (o : obj) (f : string) (p : ptr) (h : heap) : st :=
  match o with
  | Ctx => mkSt h (ctx s) ((f, p) :: cf s) (mf s)
  | Mesh => mkSt h (ctx s) (cf s) ((f, p) :: mf s)
  end.
Definition with_heap (s : st) (h : heap) : st := mkSt h (ctx s) (cf s) (mf s).

(** One statement: allocate an array into a field; release the array of a field;
    the same under [if (context->f)].  The extents of a multi-dimensional release
    are read from the mesh. *)
Inductive op :=
| Alloc (o : obj) (f : string) (dims : list size)
| Free (o : obj) (f : string) (counts : list size)
| FreeIf (o : obj) (f : string) (counts : list size).

Definition release (z : sizes) (s : st) (k : obj * string) (counts : list size) : outcome st :=
  do _ <- (match counts with [] => Ok tt | _ => reach s Mesh end);
  do h <- dealloc_array (map (eval z) counts) (get s k) (hp s);
  Ok (with_heap s h).
Definition step (z : sizes) (a : op) (s : st) : outcome st :=
  match a with
  | Alloc o f dims =>
      do _ <- reach s o;
      let (p, h) := alloc_array (map (eval z) dims) (hp s) in Ok (set s o f p h)
  | Free o f counts => do _ <- reach s o; release z s (o, f) counts
  | FreeIf o f counts =>
      do _ <- reach s o;
      match get s (o, f) with Null => Ok s | _ => release z s (o, f) counts end
  end.
Fixpoint run (z : sizes) (l : list op) (s : st) : outcome st :=
  match l with [] => Ok s | a :: l => do s1 <- step z a s; run z l s1 end.

(** ** The calls *)
Definition when (b : bool) (l : list op) : list op := if b then l else [].
(** Which material properties were set (MaterialPropHas..., src/tdymaterialproperties.c),
    and whether a file of connected regions was given. *)
Record materials := mkMaterials {
  m_kappa : bool; m_c_soil : bool; m_rho_soil : bool; m_D_saline : bool; m_mu_saline : bool; m_region : bool }.

(** AllocateCells, src/fv/share/tdymesh.c:16-77. *)
Definition allocate_cells : list op :=
  [ Alloc Mesh "cells.id" [Cells];
    Alloc Mesh "cells.global_id" [Cells];
    Alloc Mesh "cells.natural_id" [Cells];
    Alloc Mesh "cells.is_local" [Cells];
    Alloc Mesh "cells.num_vertices" [Cells];
    Alloc Mesh "cells.num_edges" [Cells];
    Alloc Mesh "cells.num_faces" [Cells];
    Alloc Mesh "cells.num_neighbors" [Cells];
    Alloc Mesh "cells.num_subcells" [Cells];
    Alloc Mesh "cells.vertex_offset" [Plus Cells (Const 1)];
    Alloc Mesh "cells.edge_offset" [Plus Cells (Const 1)];
    Alloc Mesh "cells.face_offset" [Plus Cells (Const 1)];
    Alloc Mesh "cells.neighbor_offset" [Plus Cells (Const 1)];
    Alloc Mesh "cells.vertex_ids" [Times Cells CellVertices];
    Alloc Mesh "cells.edge_ids" [Times Cells CellEdges];
    Alloc Mesh "cells.neighbor_ids" [Times Cells CellNeighbors];
    Alloc Mesh "cells.face_ids" [Times Cells CellFaces];
    Alloc Mesh "cells.centroid" [Cells];
    Alloc Mesh "cells.volume" [Cells] ].

(** AllocateSubcells, src/fv/share/tdymesh.c:85-143; a subcell is a hexahedron
    with 3 nu-vectors, 8 vertices and 3 faces, and a cell has 8. *)
Definition allocate_subcells : list op :=
  [ Alloc Mesh "subcells.nu_vector" [Times (Times Cells (Const 8)) (Const 3)];
    Alloc Mesh "subcells.nu_star_vector" [Times (Times Cells (Const 8)) (Const 3)];
    Alloc Mesh "subcells.variable_continuity_coordinates" [Times (Times Cells (Const 8)) (Const 3)];
    Alloc Mesh "subcells.face_centroid" [Times (Times Cells (Const 8)) (Const 3)];
    Alloc Mesh "subcells.vertices_coordinates" [Times (Times Cells (Const 8)) (Const 8)];
    Alloc Mesh "subcells.id" [Times Cells (Const 8)];
    Alloc Mesh "subcells.num_nu_vectors" [Times Cells (Const 8)];
    Alloc Mesh "subcells.num_vertices" [Times Cells (Const 8)];
    Alloc Mesh "subcells.num_faces" [Times Cells (Const 8)];
    Alloc Mesh "subcells.type" [Times Cells (Const 8)];
    Alloc Mesh "subcells.nu_vector_offset" [Plus (Times Cells (Const 8)) (Const 1)];
    Alloc Mesh "subcells.vertex_offset" [Plus (Times Cells (Const 8)) (Const 1)];
    Alloc Mesh "subcells.face_offset" [Plus (Times Cells (Const 8)) (Const 1)];
    Alloc Mesh "subcells.face_ids" [Times (Times Cells (Const 8)) (Const 3)];
    Alloc Mesh "subcells.is_face_up" [Times (Times Cells (Const 8)) (Const 3)];
    Alloc Mesh "subcells.face_unknown_idx" [Times (Times Cells (Const 8)) (Const 3)];
    Alloc Mesh "subcells.face_flux_idx" [Times (Times Cells (Const 8)) (Const 3)];
    Alloc Mesh "subcells.face_area" [Times (Times Cells (Const 8)) (Const 3)];
    Alloc Mesh "subcells.vertex_ids" [Times (Times Cells (Const 8)) (Const 3)];
    Alloc Mesh "subcells.T" [Times Cells (Const 8)] ].

(** AllocateVertices, src/fv/share/tdymesh.c:151-205. *)
Definition allocate_vertices : list op :=
  [ Alloc Mesh "vertices.id" [Vertices];
    Alloc Mesh "vertices.global_id" [Vertices];
    Alloc Mesh "vertices.num_internal_cells" [Vertices];
    Alloc Mesh "vertices.num_edges" [Vertices];
    Alloc Mesh "vertices.num_faces" [Vertices];
    Alloc Mesh "vertices.num_boundary_faces" [Vertices];
    Alloc Mesh "vertices.is_local" [Vertices];
    Alloc Mesh "vertices.coordinate" [Vertices];
    Alloc Mesh "vertices.edge_offset" [Plus Vertices (Const 1)];
    Alloc Mesh "vertices.face_offset" [Plus Vertices (Const 1)];
    Alloc Mesh "vertices.internal_cell_offset" [Plus Vertices (Const 1)];
    Alloc Mesh "vertices.subcell_offset" [Plus Vertices (Const 1)];
    Alloc Mesh "vertices.boundary_face_offset" [Plus Vertices (Const 1)];
    Alloc Mesh "vertices.edge_ids" [Times Vertices VertexEdges];
    Alloc Mesh "vertices.face_ids" [Times Vertices VertexFaces];
    Alloc Mesh "vertices.subface_ids" [Times Vertices VertexFaces];
    Alloc Mesh "vertices.internal_cell_ids" [Times Vertices VertexCells];
    Alloc Mesh "vertices.subcell_ids" [Times Vertices VertexFaces];
    Alloc Mesh "vertices.boundary_face_ids" [Times Vertices VertexFaces] ].

(** AllocateEdges, src/fv/share/tdymesh.c:216-250. *)
Definition allocate_edges : list op :=
  [ Alloc Mesh "edges.id" [Edges];
    Alloc Mesh "edges.global_id" [Edges];
    Alloc Mesh "edges.num_cells" [Edges];
    Alloc Mesh "edges.vertex_ids" [Times Edges (Const 2)];
    Alloc Mesh "edges.is_local" [Edges];
    Alloc Mesh "edges.is_internal" [Edges];
    Alloc Mesh "edges.cell_offset" [Plus Edges (Const 1)];
    Alloc Mesh "edges.cell_ids" [Times Edges EdgeCells];
    Alloc Mesh "edges.centroid" [Edges];
    Alloc Mesh "edges.normal" [Edges];
    Alloc Mesh "edges.length" [Edges] ].

(** AllocateFaces, src/fv/share/tdymesh.c:259-322. *)
Definition allocate_faces : list op :=
  [ Alloc Mesh "faces.id" [Faces];
    Alloc Mesh "faces.num_vertices" [Faces];
    Alloc Mesh "faces.num_edges" [Faces];
    Alloc Mesh "faces.num_cells" [Faces];
    Alloc Mesh "faces.is_local" [Faces];
    Alloc Mesh "faces.is_internal" [Faces];
    Alloc Mesh "faces.vertex_offset" [Plus Faces (Const 1)];
    Alloc Mesh "faces.cell_offset" [Plus Faces (Const 1)];
    Alloc Mesh "faces.edge_offset" [Plus Faces (Const 1)];
    Alloc Mesh "faces.cell_ids" [Times Faces FaceCells];
    Alloc Mesh "faces.edge_ids" [Times Faces FaceEdges];
    Alloc Mesh "faces.vertex_ids" [Times Faces FaceVertices];
    Alloc Mesh "faces.bc_type" [Faces];
    Alloc Mesh "faces.area" [Faces];
    Alloc Mesh "faces.projected_area" [Faces];
    Alloc Mesh "faces.dist" [Faces];
    Alloc Mesh "faces.dist_wt_up" [Faces];
    Alloc Mesh "faces.dist_up_dn" [Faces; Const 2];
    Alloc Mesh "faces.unit_vec_up_dn" [Faces; Const 2];
    Alloc Mesh "faces.centroid" [Faces];
    Alloc Mesh "faces.normal" [Faces] ].

(** TDyMeshDestroy, src/fv/share/tdymesh.c:809-905, without the release of the mesh structure itself. *)
Definition mesh_frees : list op :=
  [ Free Mesh "cells.id" [];
    Free Mesh "cells.global_id" [];
    Free Mesh "cells.natural_id" [];
    Free Mesh "cells.is_local" [];
    Free Mesh "cells.num_vertices" [];
    Free Mesh "cells.num_edges" [];
    Free Mesh "cells.num_faces" [];
    Free Mesh "cells.num_neighbors" [];
    Free Mesh "cells.num_subcells" [];
    Free Mesh "cells.vertex_offset" [];
    Free Mesh "cells.edge_offset" [];
    Free Mesh "cells.face_offset" [];
    Free Mesh "cells.neighbor_offset" [];
    Free Mesh "cells.vertex_ids" [];
    Free Mesh "cells.edge_ids" [];
    Free Mesh "cells.neighbor_ids" [];
    Free Mesh "cells.face_ids" [];
    Free Mesh "cells.centroid" [];
    Free Mesh "cells.volume" [];
    Free Mesh "subcells.nu_vector" [];
    Free Mesh "subcells.nu_star_vector" [];
    Free Mesh "subcells.variable_continuity_coordinates" [];
    Free Mesh "subcells.face_centroid" [];
    Free Mesh "subcells.vertices_coordinates" [];
    Free Mesh "subcells.id" [];
    Free Mesh "subcells.num_nu_vectors" [];
    Free Mesh "subcells.num_vertices" [];
    Free Mesh "subcells.num_faces" [];
    Free Mesh "subcells.type" [];
    Free Mesh "subcells.nu_vector_offset" [];
    Free Mesh "subcells.vertex_offset" [];
    Free Mesh "subcells.face_offset" [];
    Free Mesh "subcells.face_ids" [];
    Free Mesh "subcells.is_face_up" [];
    Free Mesh "subcells.face_unknown_idx" [];
    Free Mesh "subcells.face_flux_idx" [];
    Free Mesh "subcells.face_area" [];
    Free Mesh "subcells.vertex_ids" [];
    Free Mesh "subcells.T" [];
    Free Mesh "vertices.id" [];
    Free Mesh "vertices.global_id" [];
    Free Mesh "vertices.num_internal_cells" [];
    Free Mesh "vertices.num_edges" [];
    Free Mesh "vertices.num_faces" [];
    Free Mesh "vertices.num_boundary_faces" [];
    Free Mesh "vertices.is_local" [];
    Free Mesh "vertices.coordinate" [];
    Free Mesh "vertices.edge_offset" [];
    Free Mesh "vertices.face_offset" [];
    Free Mesh "vertices.internal_cell_offset" [];
    Free Mesh "vertices.subcell_offset" [];
    Free Mesh "vertices.boundary_face_offset" [];
    Free Mesh "vertices.edge_ids" [];
    Free Mesh "vertices.face_ids" [];
    Free Mesh "vertices.subface_ids" [];
    Free Mesh "vertices.internal_cell_ids" [];
    Free Mesh "vertices.subcell_ids" [];
    Free Mesh "vertices.boundary_face_ids" [];
    Free Mesh "edges.id" [];
    Free Mesh "edges.global_id" [];
    Free Mesh "edges.num_cells" [];
    Free Mesh "edges.vertex_ids" [];
    Free Mesh "edges.is_local" [];
    Free Mesh "edges.is_internal" [];
    Free Mesh "edges.cell_offset" [];
    Free Mesh "edges.cell_ids" [];
    Free Mesh "edges.centroid" [];
    Free Mesh "edges.normal" [];
    Free Mesh "edges.length" [];
    Free Mesh "faces.id" [];
    Free Mesh "faces.num_vertices" [];
    Free Mesh "faces.num_edges" [];
    Free Mesh "faces.num_cells" [];
    Free Mesh "faces.is_local" [];
    Free Mesh "faces.is_internal" [];
    Free Mesh "faces.vertex_offset" [];
    Free Mesh "faces.cell_offset" [];
    Free Mesh "faces.edge_offset" [];
    Free Mesh "faces.cell_ids" [];
    Free Mesh "faces.edge_ids" [];
    Free Mesh "faces.vertex_ids" [];
    Free Mesh "faces.area" [];
    Free Mesh "faces.centroid" [];
    Free Mesh "faces.normal" [];
    Free Mesh "closureSize" [];
    Free Mesh "closure" [points] ].

(** InitMaterials, src/fv/mpfao/tdympfao.c:630-690: the allocations. *)
Definition init_materials (m : materials) : list op :=
  [ Alloc Ctx "K" [Times (Const 9) Cells]; Alloc Ctx "K0" [Times (Const 9) Cells]; Alloc Ctx "porosity" [Cells] ]
  ++ when (m_kappa m) [ Alloc Ctx "Kappa" [Times (Const 9) Cells]; Alloc Ctx "Kappa0" [Times (Const 9) Cells] ]
  ++ when (m_c_soil m) [ Alloc Ctx "c_soil" [Cells] ]
  ++ when (m_rho_soil m) [ Alloc Ctx "rho_soil" [Cells] ]
  ++ when (m_D_saline m) [ Alloc Ctx "D_saline" [Times (Const 9) Cells] ]
  ++ when (m_mu_saline m) [ Alloc Ctx "mu_saline" [Cells] ]
  ++ [ Alloc Ctx "Kr" [Cells];
       Alloc Ctx "dKr_dS" [Cells];
       Alloc Ctx "S" [Cells];
       Alloc Ctx "dS_dP" [Cells];
       Alloc Ctx "d2S_dP2" [Cells];
       Alloc Ctx "dS_dT" [Cells];
       Alloc Ctx "Sr" [Cells];
       Alloc Ctx "rho" [Cells];
       Alloc Ctx "drho_dP" [Cells];
       Alloc Ctx "d2rho_dP2" [Cells];
       Alloc Ctx "vis" [Cells];
       Alloc Ctx "dvis_dP" [Cells];
       Alloc Ctx "d2vis_dP2" [Cells];
       Alloc Ctx "h" [Cells];
       Alloc Ctx "dh_dT" [Cells];
       Alloc Ctx "dh_dP" [Cells];
       Alloc Ctx "drho_dT" [Cells];
       Alloc Ctx "u" [Cells];
       Alloc Ctx "du_dP" [Cells];
       Alloc Ctx "du_dT" [Cells];
       Alloc Ctx "dvis_dT" [Cells];
       Alloc Ctx "m_nacl" [Cells] ].

(** InitMaterials, src/fv/fvtpf/tdyfvtpf.c:157-207: the allocations. *)
Definition init_materials_fvtpf (m : materials) : list op :=
  [ Alloc Ctx "K" [Times (Const 9) Cells]; Alloc Ctx "K0" [Times (Const 9) Cells]; Alloc Ctx "porosity" [Cells] ]
  ++ when (m_kappa m) [ Alloc Ctx "Kappa" [Times (Const 9) Cells]; Alloc Ctx "Kappa0" [Times (Const 9) Cells] ]
  ++ when (m_c_soil m) [ Alloc Ctx "c_soil" [Cells] ]
  ++ when (m_rho_soil m) [ Alloc Ctx "rho_soil" [Cells] ]
  ++ [ Alloc Ctx "Kr" [Cells];
       Alloc Ctx "dKr_dS" [Cells];
       Alloc Ctx "S" [Cells];
       Alloc Ctx "dS_dP" [Cells];
       Alloc Ctx "d2S_dP2" [Cells];
       Alloc Ctx "dS_dT" [Cells];
       Alloc Ctx "Sr" [Cells];
       Alloc Ctx "pressure" [Cells];
       Alloc Ctx "rho" [Cells];
       Alloc Ctx "drho_dP" [Cells];
       Alloc Ctx "d2rho_dP2" [Cells];
       Alloc Ctx "vis" [Cells];
       Alloc Ctx "dvis_dP" [Cells];
       Alloc Ctx "d2vis_dP2" [Cells];
       Alloc Ctx "h" [Cells];
       Alloc Ctx "dh_dT" [Cells];
       Alloc Ctx "dh_dP" [Cells];
       Alloc Ctx "drho_dT" [Cells];
       Alloc Ctx "u" [Cells];
       Alloc Ctx "du_dP" [Cells];
       Alloc Ctx "du_dT" [Cells];
       Alloc Ctx "dvis_dT" [Cells] ].

(** AllocateMemoryForBoundaryValues, src/fv/fvtpf/tdyfvtpf.c:276-308. *)
Definition boundary_values_fvtpf : list op :=
  [ Alloc Ctx "Kr_bnd" [BoundaryFaces];
    Alloc Ctx "dKr_dS_bnd" [BoundaryFaces];
    Alloc Ctx "S_bnd" [BoundaryFaces];
    Alloc Ctx "dS_dP_bnd" [BoundaryFaces];
    Alloc Ctx "d2S_dP2_bnd" [BoundaryFaces];
    Alloc Ctx "P_bnd" [BoundaryFaces];
    Alloc Ctx "rho_bnd" [BoundaryFaces];
    Alloc Ctx "vis_bnd" [BoundaryFaces] ].

(** AllocateMemoryForBoundaryValues, src/fv/mpfao/tdympfao.c:297-337;
    Psi_subc_Gmatrix is non-NULL in the salinity mode on a mesh with cells (a mesh without cells has
    no boundary faces, and an allocation of no elements gives NULL as well). *)
Definition boundary_values (psi : bool) : list op :=
  [ Alloc Ctx "Kr_bnd" [BoundaryFaces];
    Alloc Ctx "dKr_dS_bnd" [BoundaryFaces];
    Alloc Ctx "S_bnd" [BoundaryFaces];
    Alloc Ctx "dS_dP_bnd" [BoundaryFaces];
    Alloc Ctx "d2S_dP2_bnd" [BoundaryFaces];
    Alloc Ctx "P_bnd" [BoundaryFaces];
    Alloc Ctx "rho_bnd" [BoundaryFaces];
    Alloc Ctx "vis_bnd" [BoundaryFaces] ]
  ++ when psi [ Alloc Ctx "Psi_bnd" [BoundaryFaces] ].

(** TDyMeshCreateFromPlex, src/fv/share/tdymeshplex.c:3685-3777: V, X and N by
    TDyMeshComputeGeometryFromPlex (3481-3483); the region by TDyRegionAddCells
    (src/fv/mpfao/tdyregion.c:25-36), called from SaveNaturalIDs
    (src/fv/share/tdymeshplex.c:604-713) when a file is given. *)
Definition mesh_create (m : materials) : list op :=
  [ Alloc Ctx "mesh" [Const 1];
    Alloc Mesh "closureSize" [points];
    Alloc Mesh "closure" [points; Const 864] ]
  ++ allocate_cells ++ allocate_edges ++ allocate_faces ++ allocate_vertices ++ allocate_subcells
  ++ [ Alloc Ctx "V" [points]; Alloc Ctx "X" [Times (Const 3) points]; Alloc Ctx "N" [Times (Const 3) points] ]
  ++ when (m_region m) [ Alloc Mesh "region_connected.cell_ids" [Cells] ].

(** Richards, Richards with the DAE formulation, TH and salinity. *)
Inductive mode := Richards | RichardsDAE | TH | Salinity.
Definition is_TH (md : mode) := match md with TH => true | _ => false end.
Definition is_Salinity (md : mode) := match md with Salinity => true | _ => false end.

(** TDySetup_Richards_MPFAO, TDySetup_TH_MPFAO, TDySetup_Salinity_MPFAO,
    src/fv/mpfao/tdympfao.c:2277-2330, 2384-2447, 2450-2516; TDySetup_Richards_MPFAO_DAE
    (2333-2381) returns at once.  AllocateMemoryForEnergyBoundaryValues 339-366,
    AllocateMemoryForSourceSinkValues 368-389, AllocateMemoryForEnergySourceSinkValues 391-410. *)
Definition setup_mpfao (md : mode) (m : materials) : list op :=
  match md with
  | RichardsDAE => []
  | _ =>
      mesh_create m
      ++ [ Alloc Ctx "vel" [Faces]; Alloc Ctx "vel_count" [Faces] ]
      ++ init_materials m
      ++ [ Alloc Ctx "Trans" [Vertices; VertexFaces; Plus VertexFaces VertexCells];
           Alloc Ctx "Trans_mat" [Const 1]; Alloc Ctx "P_vec" [Const 1];
           Alloc Ctx "TtimesP_vec" [Const 1]; Alloc Ctx "GravDisVec" [Const 1] ]
      ++ when (is_TH md)
           [ Alloc Ctx "Temp_Trans" [Vertices; VertexFaces; VertexFaces];
             Alloc Ctx "Temp_Trans_mat" [Const 1]; Alloc Ctx "Temp_P_vec" [Const 1];
             Alloc Ctx "Temp_TtimesP_vec" [Const 1] ]
      ++ when (is_Salinity md)
           [ Alloc Ctx "Psi_Trans" [Vertices; VertexFaces; VertexFaces];
             Alloc Ctx "Psi_Trans_mat" [Const 1]; Alloc Ctx "Psi_vec" [Const 1];
             Alloc Ctx "TtimesPsi_vec" [Const 1] ]
      ++ [ Alloc Ctx "subc_Gmatrix" [Cells; Const 8; Const 3; Const 3] ]
      ++ when (is_TH md) [ Alloc Ctx "Temp_subc_Gmatrix" [Cells; Const 8; Const 3; Const 3] ]
      ++ when (is_Salinity md) [ Alloc Ctx "Psi_subc_Gmatrix" [Cells; Const 8; Const 3; Const 3] ]
      ++ boundary_values (is_Salinity md)
      ++ [ Alloc Ctx "source_sink" [Cells]; Alloc Ctx "salinity_source_sink" [Cells] ]
      ++ when (is_TH md || is_Salinity md)
           [ Alloc Ctx "T_bnd" [BoundaryFaces]; Alloc Ctx "h_bnd" [BoundaryFaces];
             Alloc Ctx "energy_source_sink" [Cells] ]
  end.

(** TDyCreate_MPFAO (428-447) and TDyCreate_FVTPF (src/fv/fvtpf/tdyfvtpf.c:12-30): a zero-filled context. *)
Definition create (h : heap) : st := let (p, h1) := tdy_alloc 1 h in mkSt h1 p [] [].

(** TDyDestroy_MPFAO, src/fv/mpfao/tdympfao.c:449-572: the fields of the context. *)
Definition context_frees : list op :=
  [ FreeIf Ctx "vel" [];
    FreeIf Ctx "vel_count" [];
    FreeIf Ctx "source_sink" [];
    FreeIf Ctx "energy_source_sink" [];
    FreeIf Ctx "salinity_source_sink" [];
    Free Ctx "V" [];
    Free Ctx "X" [];
    Free Ctx "N" [];
    Free Ctx "Kr" [];
    Free Ctx "dKr_dS" [];
    Free Ctx "S" [];
    Free Ctx "dS_dP" [];
    Free Ctx "d2S_dP2" [];
    Free Ctx "dS_dT" [];
    Free Ctx "Sr" [];
    Free Ctx "rho" [];
    Free Ctx "drho_dP" [];
    Free Ctx "d2rho_dP2" [];
    Free Ctx "vis" [];
    Free Ctx "dvis_dP" [];
    Free Ctx "d2vis_dP2" [];
    Free Ctx "h" [];
    Free Ctx "dh_dP" [];
    Free Ctx "dh_dT" [];
    Free Ctx "drho_dT" [];
    Free Ctx "u" [];
    Free Ctx "du_dP" [];
    Free Ctx "du_dT" [];
    Free Ctx "dvis_dT" [];
    Free Ctx "m_nacl" [];
    Free Ctx "Kr_bnd" [];
    Free Ctx "dKr_dS_bnd" [];
    Free Ctx "S_bnd" [];
    Free Ctx "dS_dP_bnd" [];
    Free Ctx "d2S_dP2_bnd" [];
    Free Ctx "P_bnd" [];
    Free Ctx "rho_bnd" [];
    Free Ctx "vis_bnd" [];
    FreeIf Ctx "T_bnd" [];
    FreeIf Ctx "h_bnd" [];
    FreeIf Ctx "Psi_bnd" [];
    FreeIf Ctx "Trans" [Vertices; VertexFaces];
    FreeIf Ctx "Trans_mat" [];
    FreeIf Ctx "P_vec" [];
    FreeIf Ctx "TtimesP_vec" [];
    FreeIf Ctx "GravDisVec" [];
    FreeIf Ctx "subc_Gmatrix" [Cells; Const 8; Const 3];
    FreeIf Ctx "Temp_subc_Gmatrix" [Cells; Const 8; Const 3];
    FreeIf Ctx "Temp_Trans" [Vertices; VertexFaces];
    FreeIf Ctx "Temp_Trans_mat" [];
    FreeIf Ctx "Temp_P_vec" [];
    FreeIf Ctx "Temp_TtimesP_vec" [];
    FreeIf Ctx "Psi_subc_Gmatrix" [Cells; Const 8; Const 3];
    FreeIf Ctx "Psi_Trans" [Vertices; VertexFaces];
    FreeIf Ctx "Psi_Trans_mat" [];
    FreeIf Ctx "Psi_vec" [];
    FreeIf Ctx "TtimesPsi_vec" [];
    FreeIf Ctx "c_soil" [];
    FreeIf Ctx "rho_soil" [];
    FreeIf Ctx "D_saline" [];
    FreeIf Ctx "mu_saline" [] ].
(** Up to the release of the context; the last statement is that of
    TDyMeshDestroy, TDyFree(mesh). *)
Definition mpfao_frees : list op :=
  context_frees
  ++ mesh_frees
  ++ [ Free Ctx "mesh" [] ].
Definition destroy_mpfao (z : sizes) (s : st) : outcome heap :=
  do s1 <- run z mpfao_frees s;
  do _ <- reach s1 Ctx;
  tdy_free (ctx s1) (hp s1).

(** TDySetup_Richards_FVTPF, src/fv/fvtpf/tdyfvtpf.c:446-495, on a DMPlex mesh. *)
Definition setup_fvtpf (m : materials) : list op :=
  mesh_create m
  ++ [ Alloc Ctx "vel" [Faces]; Alloc Ctx "vel_count" [Faces] ]
  ++ init_materials_fvtpf m
  ++ boundary_values_fvtpf
  ++ [ Alloc Ctx "source_sink" [Cells] ].
(** TDyDestroy_FVTPF, src/fv/fvtpf/tdyfvtpf.c:32-53. *)
Definition fvtpf_frees : list op :=
  [ FreeIf Ctx "vel" [];
    Free Ctx "V" [];
    Free Ctx "X" [];
    Free Ctx "N" [];
    Free Ctx "rho" [];
    Free Ctx "d2rho_dP2" [];
    Free Ctx "vis" [];
    Free Ctx "dvis_dP" [];
    Free Ctx "d2vis_dP2" [];
    Free Ctx "h" [];
    Free Ctx "dh_dP" [];
    Free Ctx "dh_dT" [];
    Free Ctx "dvis_dT" [] ].
Definition destroy_fvtpf (z : sizes) (s : st) : outcome heap :=
  do s1 <- run z fvtpf_frees s; Ok (hp s1).

(** A simulation's life: create, set up, destroy. *)
Definition life_mpfao (md : mode) (m : materials) (z : sizes) (h : heap) : outcome heap :=
  do s <- run z (setup_mpfao md m) (create h); destroy_mpfao z s.
Definition life_fvtpf (m : materials) (z : sizes) (h : heap) : outcome heap :=
  do s <- run z (setup_fvtpf m) (create h); destroy_fvtpf z s.
(** A process that runs several MPFA-O simulations one after the other. *)
Fixpoint lives (l : list (mode * materials * sizes)) (h : heap) : outcome heap :=
  match l with
  | [] => Ok h
  | (md, m, z) :: l => do h1 <- life_mpfao md m z h; lives l h1
  end.
