(** What the connectivity tables have to contain. *)
From Coq Require Import List ZArith Arith.
From Verif Require Import Mesh.
Import ListNotations.
Local Open Scope nat_scope.

(** Row i of the table is the i-th list of [L]: d entries are reserved for a row,
    the list is at their beginning. *)
Definition rows {A} (d : nat) (ids : list A) (L : list (list A)) : Prop :=
  forall i l, nth_error L i = Some l ->
    length l <= d /\ forall j v, nth_error l j = Some v -> nth_error ids (i * d + j) = Some v.

(** The positions of x in a list, counted from k. *)
Fixpoint occurrences (x : Z) (k : nat) (l : list Z) : list nat :=
  match l with
  | [] => []
  | y :: l => (if Z.eqb y x then [k] else []) ++ occurrences x (S k) l
  end.
(** The places where x occurs in a list of lists: which list, and where in it. *)
Fixpoint around (x : Z) (c : nat) (L : list (list Z)) : list (nat * nat) :=
  match L with
  | [] => []
  | l :: L => map (pair c) (occurrences x 0 l) ++ around x (S c) L
  end.

(** The points of a closure as PETSc stores it: every second entry. *)
Definition points (c : nat * list Z) : list Z := map (fun i => nth (2 * i) (snd c) (-1)%Z) (seq 0 (fst c)).
(** Those in a stratum, numbered from its start. *)
Definition members (a b : Z) (ps : list Z) : list Z :=
  map (fun p => (p - a)%Z) (filter (fun p => andb (Z.leb a p) (Z.ltb p b)) ps).

(** A closure that fits its array. *)
Definition stored (c : nat * list Z) : Prop := 2 * fst c <= length (snd c).
Definition zs (l : list nat) : list Z := map Z.of_nat l.

(** The vertices, edges and faces in the closure of a cell or face. *)
Definition vertices_of (t : strata) (c : nat * list Z) : list Z := members (v_start t) (v_end t) (points c).
Definition edges_of (t : strata) (c : nat * list Z) : list Z := members (e_start t) (e_end t) (points c).
Definition faces_of (t : strata) (c : nat * list Z) : list Z := members (f_start t) (f_end t) (points c).

(** The strata have the sizes of the mesh, and no point is in two of them. *)
Definition numbered (t : strata) (z : sizes) : Prop :=
  v_end t = (v_start t + Z.of_nat (n_vert z))%Z /\ e_end t = (e_start t + Z.of_nat (n_edge z))%Z /\
  f_end t = (f_start t + Z.of_nat (n_face z))%Z /\
  forall p, let inside a b := (a <= p < b)%Z in
    ~ (inside (v_start t) (v_end t) /\ inside (e_start t) (e_end t)) /\
  ~ (inside (v_start t) (v_end t) /\ inside (f_start t) (f_end t)) /\
  ~ (inside (e_start t) (e_end t) /\ inside (f_start t) (f_end t)).
(** All cells are of the type the tables were made for, and there is room for the
    cells around a vertex. *)
Definition uniform (t : strata) (z : sizes) (cells : list (nat * list Z)) : Prop :=
  length cells = n_cell z /\ 2 <= d_ec z /\ 2 <= d_fc z /\
  (forall cl, In cl cells -> stored cl /\ length (vertices_of t cl) = d_cv z /\ length (edges_of t cl) = d_ce z /\ length (faces_of t cl) = d_cf z) /\
  forall v, v < n_vert z -> length (around (Z.of_nat v) 0 (map (vertices_of t) cells)) <= Nat.min (d_vc z) (d_vf z).
(** The same for the faces: closure and number of supporting cells.  A vertex occurs
    once in a face. *)
Definition fitting (t : strata) (z : sizes) (faces : list (nat * list Z * nat)) : Prop :=
  length faces = n_face z /\
  (forall f, In f faces -> stored (fst f) /\ length (vertices_of t (fst f)) <= d_fv z /\ NoDup (vertices_of t (fst f))) /\
  forall v, v < n_vert z -> length (around (Z.of_nat v) 0 (map (fun f => vertices_of t (fst f)) faces)) <= d_vf z.
