(** C26-C29: redistribution of a mesh over processes. *)
From Coq Require Import List Arith ZArith Lia Bool Permutation.
From Verif Require Import Prelude Arrays UGrid UGridLoops SpecUGrid UGridProofs UGridNumProofs UGridLocalProofs
  UGridVertexProofs UGridAllProofs UGridExtraProofs.
Import ListNotations.
Local Open Scope Z_scope.

(** ** C26 *)

(** Packing writes, for each cell, the record of the cell and nothing else; no
    entry of the vector is left unwritten. *)
Theorem C26_pack : forall maxv maxd off cs p v N,
  part_of cs p -> Forall (fits N maxv maxd) cs -> length v = (length cs * stride_of maxv maxd)%nat ->
  exists v', pack maxv maxd off (p_verts p) (p_ia p) (p_ja p) v = Ok v' /\
  v' = concat (map (fun ic => record (Z.of_nat (off + fst ic)) (firstn maxv (fst (snd ic))) (snd (snd ic)) maxd)
                   (combine (seq 0 (length cs)) cs)).
Proof. exact pack_concat_proof. Qed.
Print Assumptions C26_pack.

(** All processes together: whatever the mesh, its distribution before ([parts]),
    the numbering computed by the partitioner ([num], [nls]) and the sorting
    routine, every process ends up with the right cells, neighbours and vertices. *)
Theorem C26_redistribution : forall sort, (forall a, sorts a (sort a)) ->
  forall maxv maxd pcells parts num nls,
  Forall2 part_of pcells parts ->
  Forall (fits (length (concat pcells)) maxv maxd) (concat pcells) ->
  Permutation num (seq 0 (length (concat pcells))) ->
  list_sum nls = length (concat pcells) ->
  Forall (fun n => (0 < n)%nat) nls ->
  forall A (coords : list (list A)),
  (forall c cl y, nth_error (concat pcells) c = Some cl -> In y (cell_vs cl) -> y < Z.of_nat (length coords)) ->
  exists rs, redistribute sort maxv maxd coords parts num nls = Ok rs /\ length rs = length nls /\
  forall r nl, nth_error nls r = Some nl -> exists x vids vrows cs, nth_error rs r = Some (x, (vids, vrows, cs)) /\
    right_numbering num (before nls r) nl (n_natural x) (n_ghosts x) /\
    ghosts_needed (concat pcells) nl (n_natural x) (n_ghosts x) /\
    right_neighbours (concat pcells) nl (n_natural x) (n_nbs x) /\
    right_vertices (concat pcells) (nl + length (n_ghosts x)) (n_natural x) vids vrows /\
    length cs = length vids /\
    (forall k g, nth_error vids k = Some g -> nth_error cs k = nth_error coords (Z.to_nat g)).
Proof. intros. apply redistribute_ok; assumption. Qed.
Print Assumptions C26_redistribution.

(** The width of the neighbour field is the largest number of neighbours. *)
Theorem C26_max_neighbours : forall ia ja rows, csr ia ja rows ->
  exists m, max_dual (length rows) ia = Ok m /\ (forall row, In row rows -> (length row <= m)%nat) /\
  (m = 0%nat \/ exists row, In row rows /\ m = length row).
Proof. exact max_dual_ok. Qed.
Print Assumptions C26_max_neighbours.

(** The width of the vertex field is the largest number of vertices provided no
    cell uses the first vertex of the file.  Missing: the first vertex. *)
Theorem C26_max_vertices_partial : forall maxv verts,
  Forall (fun r => length r = maxv /\ Forall (fun x => x <> 0) r) verts ->
  exists m, active maxv verts = Ok m /\
  (forall row, In row verts -> (length (filter (fun x => (0 <=? x)%Z) row) <= m)%nat) /\
  (m = 0%nat \/ exists row, In row verts /\ m = length (filter (fun x => (0 <=? x)%Z) row)).
Proof. exact max_vertices_proof. Qed.
Print Assumptions C26_max_vertices_partial.

(** The first vertex of the file (number 0) is not counted: a mesh of one
    tetrahedron gets records of three vertices, and the fourth vertex is lost. *)
Theorem C26_max_vertices_refuted : exists verts,
  verts = [[0; 1; 2; 3]] /\ active_all 4 [verts] = Ok 3%nat /\
  exists rs, redistribute insertion_sort 3 0 [[1]; [2]; [3]; [4]] [Part verts [0%nat; 0%nat] []] [0%nat] [1%nat] = Ok rs /\
  forall x vids vrows cs, In (x, (vids, vrows, cs)) rs -> ~ In 3 vids.
Proof.
  eexists. split; [reflexivity|]. split; [reflexivity|]. eexists. split; [vm_compute; reflexivity|].
  intros x vids vrows cs [E|[]] H. injection E as <- <- <- <-. simpl in H. lia.
Qed.
Print Assumptions C26_max_vertices_refuted.

(** ** C27 *)

(** The renumbering of neighbours on one process, for neighbour lists with any
    repetitions: the entry [k+1] written for a neighbour refers to local cell
    [k], whose global number is the neighbour's. *)
Theorem C27_to_local : forall sort, (forall a, sorts a (sort a)) ->
  forall stride doff nl maxd off v, (doff + maxd <= stride)%nat -> length v = (nl * stride)%nat ->
  let d i id := nth (at_slot stride doff i id) v 0 in
  (forall i id, (i < nl)%nat -> (id < maxd)%nat -> 0 <= d i id) ->
  exists ghosts w, to_local sort stride doff nl maxd off v = Ok (ghosts, w) /\
  increasing ghosts /\ length w = length v /\
  (forall g, In g ghosts -> 0 <= g /\ (g + 1 <= off \/ off + Z.of_nat nl < g + 1) /\
     exists i id, (i < nl)%nat /\ (id < maxd)%nat /\ d i id = g + 1) /\
  (forall i id, (i < nl)%nat -> (id < maxd)%nat -> d i id = 0 -> nth_error w (at_slot stride doff i id) = Some 0) /\
  (forall i id, (i < nl)%nat -> (id < maxd)%nat -> 0 < d i id ->
     exists k, nth_error w (at_slot stride doff i id) = Some (Z.of_nat (S k)) /\
       (k < nl + length ghosts)%nat /\ global_number off nl ghosts k = Some (d i id - 1)) /\
  (forall q, (forall i id, (i < nl)%nat -> (id < maxd)%nat -> q <> at_slot stride doff i id) -> nth_error w q = nth_error v q).
Proof. exact to_local_ok. Qed.
Print Assumptions C27_to_local.

(** No cell has two local numbers on a process. *)
Theorem C27_injective : forall num off nl natural ghosts i j x,
  right_numbering num off nl natural ghosts ->
  nth_error natural i = Some x -> nth_error natural j = Some x -> i = j.
Proof. exact numbering_injective. Qed.
Print Assumptions C27_injective.

(** Every cell of the mesh is owned by exactly one process. *)
Theorem C27_owned_once : forall num nls N, Permutation num (seq 0 N) -> list_sum nls = N ->
  forall c, (c < N)%nat -> exists r nl i, nth_error nls r = Some nl /\ (i < nl)%nat /\
    nth_error num c = Some (before nls r + i)%nat /\
    forall r' nl' i', nth_error nls r' = Some nl' -> (i' < nl')%nat ->
      nth_error num c = Some (before nls r' + i')%nat -> r' = r /\ i' = i.
Proof. exact owned_once_proof. Qed.
Print Assumptions C27_owned_once.

(** ** C28 *)
Theorem C28_vertices : forall sort, (forall a, sorts a (sort a)) ->
  forall stride voff n maxv v, (voff + maxv <= stride)%nat -> length v = (n * stride)%nat ->
  (exists i iv, (i < n)%nat /\ (iv < maxv)%nat /\ 0 < nth (i * stride + voff + iv) v 0) ->
  let used_by i := map (fun x => x - 1)
     (filter (fun x => 0 <? x) (map (fun iv => nth (i * stride + voff + iv) v 0) (seq 0 maxv))) in
  exists vids cells, local_vertices sort stride voff n maxv v = Ok (vids, cells) /\
  increasing vids /\ length cells = n /\
  (forall x, In x vids -> exists i, (i < n)%nat /\ In x (used_by i)) /\
  (forall i, (i < n)%nat -> exists row, nth_error cells i = Some (length (used_by i), row) /\ length row = maxv /\
     forall k x, nth_error (used_by i) k = Some x ->
     exists r, nth_error row k = Some (Z.of_nat r) /\ nth_error vids r = Some x).
Proof. intros sort Hs stride voff n maxv v H1 H2. exact (local_vertices_ok sort Hs stride voff n maxv v H1 H2). Qed.
Print Assumptions C28_vertices.

(** A process without cells reads the first element of an empty array. *)
Theorem C28_empty_refuted : forall sort stride voff maxv,
  local_vertices sort stride voff 0 maxv [] = UB.
Proof. exact empty_process_proof. Qed.
Print Assumptions C28_empty_refuted.

(** ** C29 *)
Theorem C29_preallocation : forall num off cells nl natural ghosts nbs i c cl,
  right_numbering num off nl natural ghosts -> right_neighbours cells nl natural nbs ->
  (i < nl)%nat -> nth_error natural i = Some (Z.of_nat c) -> nth_error cells c = Some cl ->
  exists nb, nth_error nbs i = Some nb /\
  preallocate nb = Ok (S (length (filter (owns nl natural) (snd cl))),
                       length (filter (fun y => negb (owns nl natural y)) (snd cl))).
Proof. exact preallocation_exact. Qed.
Print Assumptions C29_preallocation.

(** ** Example: four segments in a row, the middle one branching, on two
    processes before and three after. *)
Definition ex_cells : list (list cell) :=
  [[([0; 1], [1]); ([1; 2], [0; 2; 3])]; [([2; 3], [1; 3]); ([2; 4], [1; 2])]].
Definition ex_parts : list part :=
  [Part [[0; 1]; [1; 2]] [0; 1; 4]%nat [1; 0; 2; 3]; Part [[2; 3]; [2; 4]] [0; 2; 4]%nat [1; 3; 1; 2]].
Definition ex_num : list nat := [1; 3; 0; 2]%nat.
Definition ex_nls : list nat := [2; 1; 1]%nat.

Example ex_parts_of : Forall2 part_of ex_cells ex_parts.
Proof.
  constructor; [|constructor; [|constructor]]; (split; [reflexivity|]); intros [|[|i]] row E;
    simpl in E; try (destruct i; discriminate); injection E as <-;
    eexists; (split; [reflexivity|]); (split; [reflexivity|]); intros [|[|[|k]]] Hk; simpl in Hk |- *; (reflexivity || lia).
Qed.
Example ex_fits : Forall (fits 4 2 3) (concat ex_cells).
Proof.
  apply Forall_forall. intros c Hc. simpl in Hc.
  repeat (destruct Hc as [<-|Hc]; [|]); try contradiction; unfold fits, cell_vs; simpl;
    (split; [lia|]); (split; [intros [|[|k]] x E; simpl in E; try (destruct k; discriminate); injection E as <-; lia|]);
    (split; [lia|]); (split; [intros x Hx; lia|]); eexists; left; reflexivity.
Qed.
Example ex_run : match redistribute insertion_sort 2 3 [[10]; [11]; [12]; [13]; [14]] ex_parts ex_num ex_nls with
  | Ok rs => map (fun r => (n_natural (fst r), n_ghosts (fst r), n_nbs (fst r), snd r)) rs
  | _ => []
  end =
  [([2; 0; 3; 1], [2; 3], [(2%nat, [-3; -2; -1]); (1%nat, [-3; -1; -1])],
    ([0; 1; 2; 3; 4], [(2%nat, [2; 3]); (2%nat, [0; 1]); (2%nat, [2; 4]); (2%nat, [1; 2])], [[10]; [11]; [12]; [13]; [14]]));
   ([3; 2; 1], [0; 3], [(2%nat, [-2; -1; -1])],
    ([1; 2; 3; 4], [(2%nat, [1; 3]); (2%nat, [1; 2]); (2%nat, [0; 1])], [[11]; [12]; [13]; [14]]));
   ([1; 2; 0; 3], [0; 1; 2], [(3%nat, [-2; -1; -3])],
    ([0; 1; 2; 3; 4], [(2%nat, [1; 2]); (2%nat, [2; 3]); (2%nat, [0; 1]); (2%nat, [2; 4])], [[10]; [11]; [12]; [13]; [14]]))].
Proof. vm_compute. reflexivity. Qed.
Example ex_pre : map preallocate [(3%nat, [1; -2; 0; -1])] = [Ok (3, 1)%nat].
Proof. reflexivity. Qed.
