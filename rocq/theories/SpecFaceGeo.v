(** Specification vocabulary for the orientation of faces. *)
From Coq Require Import Reals List ZArith Permutation.
From Verif Require Import Geom SpecGeom FaceGeo.
Import ListNotations.
Local Open Scope R_scope.

Definition cross (a b : v3) : v3 :=
  V3 (vy a * vz b - vz a * vy b) (vz a * vx b - vx a * vz b) (vx a * vy b - vy a * vx b).
(** At [b] the path a, b, c turns to the left, seen from the side [n] points to. *)
Definition turns (n a b c : v3) : Prop := exists k, 0 < k /\ cross (vsub b a) (vsub c b) = vscale k n.
Definition unit (n : v3) : Prop := dot n n = 1.
(** A triangle, or a flat convex quadrilateral, run through counter-clockwise. *)
Definition polygon (n : v3) (pts : list v3) : Prop :=
  unit n /\
  match pts with
  | [a; b; c] => turns n a b c
  | [a; b; c; d] => turns n a b c /\ turns n b c d /\ turns n c d a /\ turns n d a b
  | _ => False
  end.
(** The last two vertices may be in the wrong order. *)
Definition nearly (n : v3) (pts : list v3) : Prop :=
  polygon n pts \/ match pts with [a; b; c; d] => polygon n [a; b; d; c] | _ => False end.

(** The positions of the vertices of a face. *)
Definition at_ (coords : list v3) (i : Z) (p : v3) : Prop := (0 <= i)%Z /\ nth_error coords (Z.to_nat i) = Some p.
Definition located (coords : list v3) (vs : list Z) (pts : list v3) : Prop := Forall2 (at_ coords) vs pts.

(** Height above the plane through [x] with normal [n]. *)
Definition height (n x p : v3) : R := dot n (vsub p x).
Definition opp (n : v3) : v3 := vscale (-1) n.
