(** What the theorems about the numbering of the faces around a vertex say. *)
From Coq Require Import Reals List Bool Arith ZArith.
From Verif Require Import Prelude Arrays Mpfao Numbering.
Import ListNotations.
Local Open Scope Z_scope.

Definition touches (k : corner) (f c : nat) : Prop :=
  exists fc, nth_error (k_fcells k) f = Some fc /\ (fst fc = Z.of_nat c \/ snd fc = Z.of_nat c).
Definition inside (k : corner) (f : nat) : bool := nth f (k_internal k) false.

(** The surroundings of a vertex in a conforming mesh: a face lies between two different
    cells of the vertex or between one cell and the outside; the three faces of a sub-cell
    are the faces of its cell at the vertex; two cells share at most one of these faces. *)
Record conforming (k : corner) : Prop := {
  cf_cells : NoDup (k_cells k);
  cf_sub : length (k_sub k) = length (k_cells k);
  cf_bnd : NoDup (k_bnd k);
  cf_faces : NoDup (k_faces k);
  cf_three : forall a c f0 f1 f2, nth_error (k_cells k) a = Some c -> nth_error (k_sub k) a = Some (f0, f1, f2) ->
    NoDup [f0; f1; f2] /\ (forall f, In f [f0; f1; f2] <-> In f (k_faces k) /\ touches k f c);
  cf_sides : forall f, In f (k_faces k) -> exists c1 c2,
    nth_error (k_fcells k) f = Some (c1, c2) /\ c1 <> c2 /\ (0 <= c1 \/ 0 <= c2) /\
    nth_error (k_internal k) f = Some ((0 <=? c1) && (0 <=? c2)) /\
    (forall c, touches k f c -> In c (k_cells k));
  cf_outer : forall f, In f (k_bnd k) <-> In f (k_faces k) /\ inside k f = false;
  cf_share : forall f h c d, In f (k_faces k) -> In h (k_faces k) -> c <> d ->
    touches k f c -> touches k f d -> touches k h c -> touches k h d -> f = h;
  cf_verts : forall f, In f (k_faces k) -> exists vs, nth_error (k_fverts k) f = Some vs /\
    In (k_iv k) vs /\ (length vs <= 4)%nat
}.

(** The positions on the two sides of a face: two cells, or a cell and the boundary face
    itself. *)
Inductive ends (k : corner) (f : nat) : Z -> Z -> Prop :=
| ends_in : forall a b ca cb, nth_error (k_cells k) a = Some ca -> nth_error (k_cells k) b = Some cb ->
    ca <> cb -> touches k f ca -> touches k f cb -> ends k f (Z.of_nat a) (Z.of_nat b)
| ends_out : forall a j ca, nth_error (k_cells k) a = Some ca -> nth_error (k_bnd k) j = Some f ->
    touches k f ca -> ends k f (Z.of_nat a) (Z.of_nat (length (k_cells k) + j)).
Definition connects (k : corner) (f : nat) (c : conn) : Prop :=
  ends k f (fst c) (snd c) \/ ends k f (snd c) (fst c).
Definition joined (k : corner) (x y : Z) : Prop := exists f, In f (k_faces k) /\ connects k f (x, y).

(** A way round the vertex, in two levels: each cell follows and is followed by a
    neighbour, cyclically, and has a neighbour at the same place in the other level. *)
Definition is_cell (k : corner) (x : Z) : Prop := x < Z.of_nat (length (k_cells k)).
Definition ring (k : corner) (r : list Z) : Prop :=
  (forall i x y, nth_error r i = Some x -> nth_error r (S i mod length r) = Some y ->
     is_cell k x \/ is_cell k y -> joined k x y) /\
  (forall x, In x r -> is_cell k x -> (3 <= length r)%nat).
Record round (k : corner) (r0 r1 : list Z) : Prop := {
  ro_distinct : NoDup (r0 ++ r1);
  ro_range : forall x, In x (r0 ++ r1) -> 0 <= x < Z.of_nat (length (k_cells k) + length (k_bnd k));
  ro_cells : forall a, (a < length (k_cells k))%nat -> In (Z.of_nat a) (r0 ++ r1);
  ro_ring0 : ring k r0;
  ro_ring1 : ring k r1;
  ro_across : forall i x y, nth_error r0 i = Some x -> nth_error r1 i = Some y ->
    is_cell k x \/ is_cell k y -> joined k x y;
  ro_opposite0 : forall i x, nth_error r0 i = Some x -> is_cell k x -> (i < length r1)%nat;
  ro_opposite1 : forall i x, nth_error r1 i = Some x -> is_cell k x -> (i < length r0)%nat
}.
(** The array that holds it: the rest is -1. *)
Definition padded (k : corner) (r : list Z) : list Z :=
  r ++ repeat (-1) (length (k_cells k) + length (k_bnd k) - length r).

(** Every face has one connection, every connection is one of a face, and those between
    cells come first. *)
Record connected (k : corner) (ups : list conn) : Prop := {
  cn_each : forall f, In f (k_faces k) -> exists i c, nth_error ups i = Some c /\ connects k f c /\
    forall j d, nth_error ups j = Some d -> connects k f d -> j = i;
  cn_sound : forall i c, nth_error ups i = Some c -> exists f, In f (k_faces k) /\ connects k f c;
  cn_first : forall i c f, nth_error ups i = Some c -> connects k f c -> In f (k_faces k) ->
    ((i < length (filter (inside k) (k_faces k)))%nat <-> inside k f = true)
}.

(** The vertex as the assembly of the local systems sees it (tdympfao.c tests
    is_face_up == 1); [bno] and [G] give boundary numbers and rows of G matrices. *)
Fixpoint triples {A} (l : list A) : list (A * A * A) :=
  match l with a :: b :: c :: l => (a, b, c) :: triples l | _ => [] end.
Definition face_of (k : corner) (bno : nat -> nat) (G : nat -> nat -> R * R * R)
  (s : nat * nat * nat) (n : Z * Z * Z) : sface :=
  let '(i, c, f) := s in
  let '(unk, up, flux) := n in
  mkSface (up =? 1) (Z.to_nat flux) (Z.to_nat unk) (inside k f) (bno f) (G i f).
Definition entries (n : numbers) : list (Z * Z * Z) := combine (combine (n_unk n) (n_up n)) (n_flux n).
Definition faces_of (k : corner) bno G (n : numbers) : list sface :=
  map (fun p => face_of k bno G (fst p) (snd p)) (combine (slots k) (entries n)).
Definition rows_of (n : numbers) : list nat :=
  map (fun p => (fst p * 4 + snd p)%nat) (combine (n_faces n) (n_subfaces n)).
Definition vertex_of (k : corner) bno G (n : numbers) : vertex :=
  mkVertex (k_cells k) (triples (faces_of k bno G n)) (length (k_faces k)) (length (k_bnd k)) (rows_of n).
