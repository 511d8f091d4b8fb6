(** Specification vocabulary for the attributes of the face between two cells. *)
From Coq Require Import Reals List ZArith.
From Verif Require Import Geom SpecGeom SpecFaceGeo SpecCellGeo SpecMeshFaces FaceAttr.
Import ListNotations.
Local Open Scope R_scope.

(** The vector area of a closed polygon: half the sum of the cross products of
    consecutive corners. *)
Fixpoint around (first : v3) (l : list v3) : v3 :=
  match l with
  | [] => origin
  | [p] => cross p first
  | p :: (q :: _) as l' => vadd (cross p q) (around first l')
  end.
Definition vector_area (pts : list v3) : v3 := match pts with [] => origin | p :: _ => vscale (1 / 2) (around p pts) end.
(** The area of a flat polygon with the unit normal [n]. *)
Definition area (n : v3) (pts : list v3) : R := dot n (vector_area pts).

(** What a face between cells with the centres [up] and [dn] is described by: its area,
    its area seen along the line between the centres, the lengths of the two parts of
    this line, its length, the share of the first part, and its direction. *)
Record described (n : v3) (pts : list v3) (up dn : v3) (ar pr d1 d2 d w : R) (u : v3) : Prop := {
  ds_area : ar = area n pts /\ 0 < ar;
  ds_direction : unit u /\ 0 < dot u n <= 1 /\ dn = vadd up (vscale d u);
  ds_projected : pr = ar * dot u n;
  ds_length : d = length3 (vsub dn up) /\ d = d1 + d2 /\ 0 < d1 /\ 0 < d2;
  ds_cut : forall p, In p pts -> height n p (vadd up (vscale d1 u)) = 0;
  ds_share : w * d = d1 /\ 0 < w < 1 }.

(** The mesh: every cell is convex with flat faces, and the two cells of a common side
    run through it in opposite directions. *)
Record solid (coords : list v3) (cnv : list nat) (cv : list (list Z)) (pts : nat -> list v3) (ng : nat) : Prop := {
  so_convex : forall c, (c < ng)%nat -> convex_cell (pts c);
  so_count : forall c, (c < ng)%nat -> length (pts c) = nth c cnv 0%nat;
  so_corners : forall c, (c < ng)%nat -> forall j, (j < length (pts c))%nat -> at_ coords (nth j (nth c cv []) 0%Z) (nth j (pts c) origin);
  so_opposite : forall c i d j, (c < ng)%nat -> (d < ng)%nat -> c <> d -> common cnv cv c i d j ->
    rotation (side cnv cv d j) (rev (side cnv cv c i)) }.

(** The corners of the [i]-th side of the cell [c]. *)
Definition face_points (cnv : list nat) (pts : nat -> list v3) (c i : nat) : list v3 := pick (pts c) (nth i (sides (nth c cnv 0%nat)) []).

(** Arrays for [n] faces, and what they hold of the face [i]. *)
Definition roomy (n : nat) (t : ctables) : Prop :=
  length (h_area t) = n /\ length (h_proj t) = n /\ length (h_updn t) = n /\ length (h_dist t) = n /\ length (h_wt t) = n /\ length (h_unit t) = n /\
  (forall row, In row (h_updn t) -> (2 <= length row)%nat) /\ (forall row, In row (h_unit t) -> (3 <= length row)%nat).
Definition stored (t : ctables) (i : nat) (ar pr d1 d2 d w : R) (u : v3) : Prop :=
  nth_error (h_area t) i = Some ar /\ nth_error (h_proj t) i = Some pr /\ nth_error (h_dist t) i = Some d /\ nth_error (h_wt t) i = Some w /\
  (exists row, nth_error (h_updn t) i = Some row /\ nth_error row 0 = Some d1 /\ nth_error row 1 = Some d2) /\
  (exists row, nth_error (h_unit t) i = Some row /\ nth_error row 0 = Some (vx u) /\ nth_error row 1 = Some (vy u) /\ nth_error row 2 = Some (vz u)).

