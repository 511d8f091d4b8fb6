(** What the theorems about the cells above and below a vertex say. *)
From Coq Require Import Reals List Bool Arith ZArith Permutation.
From Verif Require Import Prelude Arrays Geom Numbering SpecNumbering Traversal SpecTraversal Levels.
Import ListNotations.
Local Open Scope nat_scope.

(** Cell [c] has vertex [v]. *)
Definition corner_at (t : terrain) (v c : nat) : Prop := exists vs, nth_error (t_cverts t) c = Some vs /\ In v vs.
(** [w] is a vertex of cell [c] straight above or below [v]. *)
Definition post (t : terrain) (v c w : nat) : Prop := corner_at t w c /\ w <> v /\ straight (t_h t) v w.
Definition higher (t : terrain) (w v : nat) : Prop :=
  exists y x, nth_error (h_vx (t_h t)) w = Some y /\ nth_error (h_vx (t_h t)) v = Some x /\ (vz x < vz y)%R.
(** A cell around [v] lies above [v] if its post leads upwards. *)
Definition lies (t : terrain) (up : bool) (v c : nat) : Prop :=
  corner_at t v c /\ exists w, post t v c w /\ if up then higher t w v else higher t v w.
(** A list with exactly the cells above (below) [v]. *)
Definition level_of (t : terrain) (up : bool) (v : nat) (l : list nat) : Prop :=
  NoDup l /\ forall c, In c l <-> lies t up v c.

(** A face with both ends of a post. *)
Definition side (t : terrain) (v w f : nat) : Prop :=
  exists vs, nth_error (t_fverts t) f = Some vs /\ In v vs /\ In w vs.

(** A mesh of vertical columns: each cell has, at each of its vertices, one post, and two
    side faces at the post; cells on the same side of a vertex have the same post; at most
    two of them have a side face on the boundary; if there are cells on both sides, equally
    many.  The other clauses say that the tables agree with each other. *)
Record columns (t : terrain) : Prop := {
  co_cells : forall v cs, nth_error (t_vcells t) v = Some cs -> NoDup cs /\ cs <> [] /\ forall c, In c cs <-> corner_at t v c;
  co_verts : forall v c, corner_at t v c -> v < length (t_vcells t) /\ v < length (h_vx (t_h t));
  co_local : length (t_local t) = length (t_vcells t);
  co_post : forall v c, corner_at t v c -> exists w, post t v c w /\ (forall w', post t v c w' -> w' = w) /\
    (higher t w v \/ higher t v w);
  co_edge : forall v c d w w', corner_at t v c -> corner_at t v d -> post t v c w -> post t v d w' ->
    (higher t w v /\ higher t w' v \/ higher t v w /\ higher t v w') -> w = w';
  co_sides : forall v c w, corner_at t v c -> post t v c w -> exists fs f g, nth_error (h_cfaces (t_h t)) c = Some fs /\
    NoDup fs /\ f <> g /\ forall x, In x fs /\ side t v w x <-> x = f \/ x = g;
  co_faces : forall c fs f, nth_error (h_cfaces (t_h t)) c = Some fs -> In f fs -> f < length (t_fint t) /\
    exists vs, nth_error (t_fverts t) f = Some vs /\ NoDup vs;
  co_rim : forall up v w c d e, lies t up v c -> lies t up v d -> lies t up v e -> post t v c w ->
    (forall x, x = c \/ x = d \/ x = e -> exists fs f, nth_error (h_cfaces (t_h t)) x = Some fs /\ In f fs /\ side t v w f /\
       nth_error (t_fint t) f = Some false) ->
    c = d \/ c = e \/ d = e;
  co_even : forall v a b, v < length (t_vcells t) -> level_of t true v a -> level_of t false v b -> a <> [] -> b <> [] ->
    length a = length b
}.

(** The rows of the vertex are right. *)
Definition right_at (t : terrain) (x : levels * levels) (v : nat) : Prop :=
  level_of t true v (row_of (fst x) v) /\ level_of t false v (row_of (snd x) v).

(** There is room for the cells of each level. *)
Definition roomy (cap : nat) (t : terrain) : Prop :=
  forall up v l, v < length (t_vcells t) -> level_of t up v l -> length l < cap.
