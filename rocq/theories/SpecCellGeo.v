(** Specification vocabulary for the geometry of cells: convex polyhedra with flat
    faces. *)
From Coq Require Import Reals List ZArith.
From Verif Require Import Geom SpecGeom FaceGeo SpecFaceGeo.
Import ListNotations.
Local Open Scope R_scope.

(** The faces of the four kinds of cells, run through counter-clockwise when seen
    from outside: the corners of a box are numbered along the bottom, then above. *)
Definition sides (n : nat) : list (list nat) :=
  match n with
  | 4%nat => [[0; 1; 3]; [1; 2; 3]; [2; 0; 3]; [0; 2; 1]]
  | 5%nat => [[0; 1; 4]; [1; 2; 4]; [2; 3; 4]; [3; 0; 4]; [0; 3; 2; 1]]
  | 6%nat => [[0; 1; 4; 3]; [1; 2; 5; 4]; [2; 0; 3; 5]; [0; 2; 1]; [3; 4; 5]]
  | 8%nat => [[0; 1; 5; 4]; [1; 2; 6; 5]; [2; 3; 7; 6]; [3; 0; 4; 7]; [0; 3; 2; 1]; [4; 5; 6; 7]]
  | _ => []
  end%nat.
Definition origin : v3 := V3 0 0 0.
Definition pick (pts : list v3) (l : list nat) : list v3 := map (fun i => nth i pts origin) l.

(** A convex cell with flat faces: every face is a convex polygon, and the other
    corners are strictly on the inner side of it. *)
Definition convex_cell (pts : list v3) : Prop :=
  sides (length pts) <> [] /\
  forall s, In s (sides (length pts)) ->
    exists n, polygon n (pick pts s) /\
      forall i, (i < length pts)%nat -> ~ In i s -> height n (nth (hd 0%nat s) pts origin) (nth i pts origin) < 0.

(** The volume of the pyramid with the apex [o] over a polygon, split into triangles
    that start at its first corner; negative if [o] is on the outer side. *)
Definition triple (a b c : v3) : R := dot a (cross b c).
Fixpoint fan (o a : v3) (l : list v3) : R :=
  match l with
  | b :: (c :: _) as l' => triple (vsub a o) (vsub b o) (vsub c o) / 6 + fan o a l'
  | _ => 0
  end.
Definition pyramid (o : v3) (l : list v3) : R := match l with a :: l => fan o a l | [] => 0 end.
Fixpoint sum (l : list R) : R := match l with x :: l => x + sum l | [] => 0 end.
(** The volume of a polyhedron, seen from [o]. *)
Definition volume (o : v3) (pts : list v3) : R := sum (map (fun s => pyramid o (pick pts s)) (sides (length pts))).

(** [c] is the mean of the points. *)
Definition mean (pts : list v3) (c : v3) : Prop :=
  INR (length pts) * vx c = sum (map vx pts) /\ INR (length pts) * vy c = sum (map vy pts) /\ INR (length pts) * vz c = sum (map vz pts).
(** [c] is strictly inside the cell. *)
Definition inside (pts : list v3) (c : v3) : Prop :=
  forall s n, In s (sides (length pts)) -> polygon n (pick pts s) ->
    (forall i, (i < length pts)%nat -> ~ In i s -> height n (nth (hd 0%nat s) pts origin) (nth i pts origin) < 0) ->
    height n (nth (hd 0%nat s) pts origin) c < 0.
