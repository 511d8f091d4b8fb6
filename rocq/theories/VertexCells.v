(** Model of SetupMap_V2C (src/fv/share/tdymeshcustom.c:795-825), the map from vertices
    to cells of a mesh that is read from a file.

    [cnv], [cv]: as in [MeshFaces].  [nv]: ugrid->num_verts_local.
    max_cells_sharing_a_vertex is 24 (src/fv/share/tdyugrid.c:49); vertex_to_cell has
    24 rows of [nv] entries (line 1271). *)
From Coq Require Import List ZArith Arith Bool.
From Verif Require Import Prelude Arrays UGrid MeshFaces.
Import ListNotations.
Local Open Scope nat_scope.

Definition max_sharing : nat := 24.
(** num_vertex_to_cell and vertex_to_cell *)
Definition vmap := (list nat * table)%type.
(** Lines 810-820.  The test looks at the number of the vertex [ivertex], which is a
    position within the cell. *)
Definition add_vertex (icell ivertex : nat) (vertex_id : Z) (m : vmap) : outcome vmap :=
  let (num, v2c) := m in
  if (vertex_id <? 0)%Z then Ok m
  else
    do idx <- rdz num vertex_id;
    do v2c <- wr2 v2c idx vertex_id (Z.of_nat icell);
    do num <- wrz num vertex_id (S idx);
    do n <- rd num ivertex;
    if max_sharing <? n then Err else Ok (num, v2c).
Definition setup_v2c (cnv : list nat) (cv : list (list Z)) (ng nv : nat) : outcome vmap :=
  for_ ng (fun icell m =>
    do nvertex <- rd cnv icell;
    for_ nvertex (fun ivertex m => do row <- rd cv icell; do v <- rd row ivertex; add_vertex icell ivertex v m) m)
  (repeat 0 nv, alloc2 max_sharing nv).
