(** * C108: reading a mesh file keeps every cell and vertex *)
From Coq Require Import List Arith ZArith Lia Bool.
From Verif Require Import Prelude UGrid SpecUGrid MeshFile SpecMeshFile MeshGraphProofs.
Import ListNotations.
Local Open Scope Z_scope.

(** On any number of processes every cell of a file of tetrahedra, pyramids,
    prisms and hexahedra is kept by exactly one process, in the order of the
    file, with its vertices numbered from 0 and unused entries -1; a process
    keeps as many cells as its part of the vector has blocks. *)
Theorem C108_cells : forall bs cells nls, (0 < bs)%nat ->
  Forall (fun c : file_cell => (length (snd c) <= bs - 1)%nat) cells -> list_sum nls = length cells -> Forall supported cells ->
  exists parts,
    mapM (fun r => read_cells bs (share bs (fst r) (snd r) (cells_vector bs cells))) (ranks_from 0 nls) = Ok parts /\
    map (@length _) parts = nls /\ concat parts = map (kept_vertices bs) cells.
Proof. exact cells_proof. Qed.
Print Assumptions C108_cells.

(** A file with a cell of any other type is refused. *)
Theorem C108_unsupported : forall bs cells nls, (0 < bs)%nat ->
  Forall (fun c : file_cell => (length (snd c) <= bs - 1)%nat) cells -> list_sum nls = length cells ->
  Exists (fun c => ~ supported c) cells ->
  mapM (fun r => read_cells bs (share bs (fst r) (snd r) (cells_vector bs cells))) (ranks_from 0 nls) = Err.
Proof. exact unsupported_proof. Qed.
Print Assumptions C108_unsupported.

(** Every vertex is kept by exactly one process with its three coordinates, in
    the order of the file; coordinates of any other dimension are refused. *)
Theorem C108_vertices : forall A (zero : A),
  (forall vs nls, Forall (fun r => length r = 3%nat) vs -> list_sum nls = length vs ->
   exists parts,
     mapM (fun r => read_coordinates zero 3 (share 3 (fst r) (snd r) (concat vs))) (ranks_from 0 nls) = Ok parts /\
     map (@length _) parts = nls /\ concat parts = vs) /\
  (forall dim v, dim <> 3%nat -> read_coordinates zero dim v = Err).
Proof.
  intros A zero. split; [intros; apply coordinates_proof; assumption|].
  intros dim v H. unfold read_coordinates. apply Nat.eqb_neq in H. rewrite H. reflexivity.
Qed.
Print Assumptions C108_vertices.

(** The number of vertices of the mesh is the number of coordinates: every
    non-empty mesh is given three times as many vertices as its file has. *)
Theorem C108_vertex_count_refuted : forall A (vs : list (list A)), Forall (fun r => length r = 3%nat) vs -> vs <> [] ->
  num_verts_global (concat vs) = (3 * length vs)%nat /\ num_verts_global (concat vs) <> length vs.
Proof.
  intros A vs H Hn. assert (E : num_verts_global (concat vs) = (3 * length vs)%nat).
  { clear Hn. unfold num_verts_global. induction H as [|r vs Hr _ IH]; [reflexivity|].
    cbn [concat length]. rewrite app_length, IH, Hr. lia. }
  split; [exact E|]. rewrite E. destruct vs; [congruence|]. cbn [length]. lia.
Qed.
Print Assumptions C108_vertex_count_refuted.

(** The matrix handed to the graph routine has one row per cell, the vertices of
    the cell among its first [ncol] entries in their order; no read or write
    leaves its array. *)
Theorem C108_adjacency : forall ncol rows, Forall (fun r => (ncol <= length r)%nat) rows ->
  exists ia ja, adjacency ncol rows = Ok (ia, ja) /\ nth_error ia 0 = Some 0%nat /\ length ia = S (length rows) /\
  csr ia ja (map (fun r => filter (fun x => 0 <=? x) (firstn ncol r)) rows).
Proof. exact adjacency_proof. Qed.
Print Assumptions C108_adjacency.

(** When no cell uses the first vertex of the file, the neighbours of a cell are
    exactly the other cells that share three vertices with it, however the file
    is distributed.  Missing: cells using vertex 1 (see the refutation). *)
Theorem C108_neighbours_partial : forall bs cells nls, (0 < bs)%nat -> list_sum nls = length cells -> Forall supported cells ->
  Forall (fun c : file_cell => (length (snd c) <= bs - 1)%nat /\ NoDup (snd c) /\ Forall (fun x => 2 <= x) (snd c)) cells ->
  exists g, graph_of_file bs (cells_vector bs cells) nls = Ok g /\ length g = length cells /\
  forall c nbs vs, nth_error g c = Some nbs -> nth_error (map snd cells) c = Some vs ->
  NoDup nbs /\ forall d, In d nbs <-> d <> c /\ exists ws, nth_error (map snd cells) d = Some ws /\ share_three vs ws.
Proof. exact graph_proof. Qed.
Print Assumptions C108_neighbours_partial.

(** Two tetrahedra with the common face 1-2-3, vertex 1 being the first of the
    file, are not neighbours: only three entries per cell are looked at, and
    these share two vertices. *)
Theorem C108_neighbours_refuted : exists cells,
  cells = [(4, [4; 1; 2; 3]); (4, [5; 1; 2; 3])] /\ Forall supported cells /\
  share_three [4; 1; 2; 3] [5; 1; 2; 3] /\
  graph_of_file 5 (cells_vector 5 cells) [2%nat] = Ok [[]; []] /\
  graph_of_file 5 (cells_vector 5 cells) [1%nat; 1%nat] = Ok [[]; []].
Proof.
  eexists. split; [reflexivity|]. split; [repeat constructor; unfold supported; simpl; auto|].
  split; [|split; reflexivity].
  exists 1, 2, 3. repeat (split; [lia|]). split; intros w Hw; simpl in *; tauto.
Qed.
Print Assumptions C108_neighbours_refuted.

(** A tetrahedron and a pyramid in blocks of six, on two processes. *)
Example mesh_cells : list file_cell := [(4, [2; 3; 4; 5]); (5, [3; 4; 5; 6; 7])].
Example mesh_vector : cells_vector 6 mesh_cells = [4; 2; 3; 4; 5; 0; 5; 3; 4; 5; 6; 7].
Proof. reflexivity. Qed.
Example mesh_parts :
  mapM (fun r => read_cells 6 (share 6 (fst r) (snd r) (cells_vector 6 mesh_cells))) (ranks_from 0 [1; 1]%nat) =
  Ok [[[1; 2; 3; 4; -1]]; [[2; 3; 4; 5; 6]]].
Proof. reflexivity. Qed.
Example mesh_graph : graph_of_file 6 (cells_vector 6 mesh_cells) [1; 1]%nat = Ok [[1]; [0]]%nat.
Proof. reflexivity. Qed.
Example mesh_bad : read_cells 5 [7; 1; 2; 3; 4] = Err.
Proof. reflexivity. Qed.
