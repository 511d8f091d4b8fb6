(** What the theorems about the order of the cells around a vertex say. *)
From Coq Require Import Reals List Bool Arith ZArith Permutation.
From Verif Require Import Prelude Arrays Geom Numbering SpecNumbering Traversal.
Import ListNotations.
Local Open Scope nat_scope.

(** A face is upright if one of its vertices is straight above or below the vertex, up to
    the tolerance of the code. *)
Definition straight (h : shape) (a b : nat) : Prop :=
  exists x y, nth_error (h_vx h) a = Some x /\ nth_error (h_vx h) b = Some y /\
    ((vx x - vx y) ^ 2 + (vy x - vy y) ^ 2 < 1 / 10 ^ 14)%R.
Definition upright (h : shape) (k : corner) (f : nat) : Prop :=
  exists vs v, nth_error (k_fverts k) f = Some vs /\ In v vs /\ v <> k_iv k /\ straight h (k_iv k) v.

(** Two cells meet in a face of the vertex. *)
Definition meet (k : corner) (c d : nat) : Prop :=
  exists f, In f (k_faces k) /\ touches k f c /\ touches k f d.

(** The cells around the vertex lie above it ([A]) or below it ([B]).  Each has two upright
    faces and one that is not; upright faces lie between cells of one level, the others
    between the levels.  If there are cells on both levels, then above every cell is
    another one, and cells are side by side where their counterparts are.  (This is a mesh
    of prisms whose columns do not end at the vertex.)  The last clauses say that the
    tables are complete. *)
Record layered (h : shape) (k : corner) (A B : list nat) : Prop := {
  ly_cells : Permutation (A ++ B) (k_cells k);
  ly_three : forall c, In c (k_cells k) -> exists u v w, u <> v /\
    upright h k u /\ upright h k v /\ ~ upright h k w /\
    (forall f, In f (k_faces k) /\ touches k f c <-> f = u \/ f = v \/ f = w);
  ly_level : forall f c d, In f (k_faces k) -> upright h k f -> touches k f c -> touches k f d -> In c A -> In d A;
  ly_across : forall f c d, In f (k_faces k) -> ~ upright h k f -> c <> d -> touches k f c -> touches k f d ->
    (In c A <-> In d B);
  ly_both : forall f c, In f (k_faces k) -> ~ upright h k f -> touches k f c -> A <> [] -> B <> [] -> inside k f = true;
  ly_match : forall a a' b b', In a A -> In a' A -> In b B -> In b' B -> meet k a a' -> meet k a b -> meet k a' b' ->
    a <> a' -> meet k b b';
  ly_faces : forall c d, In c (k_cells k) -> In d (k_cells k) -> c <> d ->
    ((exists f, In f (faces_of_cell h c) /\ In f (faces_of_cell h d)) <-> meet k c d);
  ly_known : forall c, In c (k_cells k) -> c < length (h_cfaces h) /\ c < length (h_cc h);
  ly_centre : forall f, In f (k_faces k) -> f < length (h_fc h);
  ly_points : forall f vs v, In f (k_faces k) -> nth_error (k_fverts k) f = Some vs -> In v vs -> v < length (h_vx h)
}.

(** The cells of a level can be put in a row, each beside the next. *)
Definition in_a_row (k : corner) (l : list nat) : Prop :=
  exists p, Permutation p l /\ forall i c d, nth_error p i = Some c -> nth_error p (S i) = Some d -> meet k c d.
