(** What the theorems about the stored transmissibilities say. *)
From Coq Require Import Reals ZArith List Bool Arith.
From Verif Require Import Prelude Mpfao MpfaoTs SpecFvtpf SpecMpfao SpecMpfaoTs Transmit.
Import ListNotations.
Local Open Scope R_scope.

(** A vertex of one cell with faces on the boundary. *)
Definition corner (v : vert) (e : extra) : Prop := e_nbnd e <> O /\ (length (x_cells v) <= 1)%nat.
(** The faces around vertex [v] that lie on the boundary, in the order of the cells. *)
Definition outer_faces (e : extra) (x : variable) : list sface := filter is_bnd (flat_map sfaces (e_sub e x)).

(** A row of the array, applied to values [P] of the cells and, after the [N] cells,
    of the boundary faces. *)
Definition row_value (N : nat) (T : Trans) (iv : nat) (v : vert) (e : extra) (x : variable) (j : nat) (P : nat -> R) : R :=
  total (fun c => coefficient T iv j c * P (nth c (x_cells v) O)) (length (x_cells v)) +
  total (fun d => coefficient T iv j (length (x_cells v) + d) *
                  P (nth d (map sf_bnd (outer_faces e x)) O + N)%nat) (length (outer_faces e x)).

(** The mesh as TDyMeshCreateFromPlex leaves it.  [ncv] and [nfv] bound the cells and
    faces of a vertex; a sub-face belongs to one vertex; the faces of a vertex are
    numbered as in [well_numbered], the internal ones first; the single cell of a
    corner has three faces, all on the boundary. *)
Record good_tmesh (M : tmesh) (ncv nfv : nat) : Prop := {
  gt_extra : length (t_extra M) = length (verts (t_mesh M));
  gt_max : forall v, In v (verts (t_mesh M)) -> (length (x_faces v) <= nfv)%nat /\ (length (x_cells v) <= ncv)%nat;
  gt_cells : forall v c, In v (verts (t_mesh M)) -> In c (x_cells v) -> (c < length (rocks (t_mesh M)))%nat;
  gt_faces : forall v, In v (verts (t_mesh M)) -> length (x_subs v) = length (x_faces v) /\
    forall a, In a (x_faces v) -> (a < length (faces (t_mesh M)))%nat;
  gt_rows : forall iv j v f a iv' j' v' f', subface (t_mesh M) iv j = Some (v, f, a) ->
    subface (t_mesh M) iv' j' = Some (v', f', a) -> iv = iv' /\ j = j';
  gt_numbered : forall iv v e x, nth_error (verts (t_mesh M)) iv = Some v -> nth_error (t_extra M) iv = Some e ->
    ~ corner v e -> well_numbered (vertex_of v e x);
  gt_order : forall iv v e j f a, nth_error (t_extra M) iv = Some e -> subface (t_mesh M) iv j = Some (v, f, a) ->
    ((f_up f < 0)%Z \/ (f_dn f < 0)%Z <-> (length (x_faces v) - e_nbnd e <= j)%nat);
  gt_corner : forall iv v e, nth_error (verts (t_mesh M)) iv = Some v -> nth_error (t_extra M) iv = Some e -> corner v e ->
    e_nbnd e = 3%nat /\ length (x_faces v) = 3%nat /\ length (x_cells v) = 1%nat /\ length (e_sfaces e) = 3%nat /\
    NoDup (x_faces v) /\ NoDup (e_sfaces e) /\ (forall a, In a (x_faces v) <-> In a (e_sfaces e)) /\
    (forall x, exists s, e_sub e x = [s] /\ forall f, In f (sfaces s) -> sf_internal f = false) /\
    (forall j a s, nth_error (x_faces v) j = Some a -> nth_error (x_subs v) j = Some s ->
       exists vs, nth_error (t_fverts M) a = Some vs /\ NoDup vs /\ nth_error vs s = Some iv) /\
    (forall a b f g, In a (x_faces v) -> In b (x_faces v) -> nth_error (faces (t_mesh M)) a = Some f -> nth_error (faces (t_mesh M)) b = Some g ->
       ((f_up f < 0)%Z \/ (f_dn f < 0)%Z) /\ (outside f = outside g -> a = b))
}.
(** LAPACK finds an answer at every vertex. *)
Definition answered (M : tmesh) (X : nat -> option (list R)) : Prop :=
  forall iv, (iv < length (verts (t_mesh M)))%nat -> X iv <> None.

(** The boundary numbers of the faces of a corner, in the order of the vertex:
    they are known in the order of the sub-cell. *)
Definition in_vertex_order (v : vert) (e : extra) (s : subcell) (b : nat -> nat) : Prop :=
  forall d q h, (d < 3)%nat -> nth_error (x_faces v) d = nth_error (e_sfaces e) q -> nth_error (sfaces s) q = Some h -> b d = sf_bnd h.
(** A row of a corner, with the boundary values in the order [b]. *)
Definition corner_value (N : nat) (T : Trans) (iv : nat) (cell : nat) (b : nat -> nat) (j : nat) (P : nat -> R) : R :=
  coefficient T iv j 0 * P cell + total (fun d => coefficient T iv j (1 + d) * P (b d + N)%nat) 3.
(** The columns that the arrays of the second variable have suffice (see
    C84_overrun_refuted). *)
Definition second_fits (M : tmesh) (nfv : nat) : Prop :=
  forall iv v e, nth_error (verts (t_mesh M)) iv = Some v -> nth_error (t_extra M) iv = Some e -> x_local v = true ->
    (length (x_cells v) + e_nbnd e <= nfv)%nat.
