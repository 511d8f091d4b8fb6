(** Specification vocabulary for the geometry properties. *)
From Coq Require Import Reals.
From Verif Require Import Geom.
Local Open Scope R_scope.

Definition mat_mul (a b : m3) : m3 :=
  M3 (m0 a * m0 b + m1 a * m3_ b + m2 a * m6 b) (m0 a * m1 b + m1 a * m4 b + m2 a * m7 b) (m0 a * m2 b + m1 a * m5 b + m2 a * m8 b)
     (m3_ a * m0 b + m4 a * m3_ b + m5 a * m6 b) (m3_ a * m1 b + m4 a * m4 b + m5 a * m7 b) (m3_ a * m2 b + m4 a * m5 b + m5 a * m8 b)
     (m6 a * m0 b + m7 a * m3_ b + m8 a * m6 b) (m6 a * m1 b + m7 a * m4 b + m8 a * m7 b) (m6 a * m2 b + m7 a * m5 b + m8 a * m8 b).
Definition mat_id : m3 := M3 1 0 0 0 1 0 0 0 1.
Definition mat_vec (a : m3) (v : v3) : v3 :=
  V3 (m0 a * vx v + m1 a * vy v + m2 a * vz v) (m3_ a * vx v + m4 a * vy v + m5 a * vz v) (m6 a * vx v + m7 a * vy v + m8 a * vz v).
Definition invertible (a : m3) : Prop := exists b, mat_mul a b = mat_id.

Definition dot (a b : v3) : R := vx a * vx b + vy a * vy b + vz a * vz b.
Definition vsub (a b : v3) : v3 := V3 (vx a - vx b) (vy a - vy b) (vz a - vz b).
Definition vadd (a b : v3) : v3 := V3 (vx a + vx b) (vy a + vy b) (vz a + vz b).
Definition vscale (k : R) (a : v3) : v3 := V3 (k * vx a) (k * vy a) (k * vz a).
Definition length3 (a : v3) : R := sqrt (dot a a).
(** Three points on a common line (or coinciding). *)
Definition collinear (a b c : v3) : Prop :=
  exists s t, (s <> 0 \/ t <> 0) /\ vscale s (vsub b a) = vscale t (vsub c a).
Definition on_plane (pl : plane) (p : v3) : Prop := pa pl * vx p + pb pl * vy p + pc pl * vz p + pd pl = 0.
Definition normal_of (pl : plane) : v3 := V3 (pa pl) (pb pl) (pc pl).
(** Signed value of the plane equation: its sign tells the side. *)
Definition side (pl : plane) (p : v3) : R := pa pl * vx p + pb pl * vy p + pc pl * vz p + pd pl.
